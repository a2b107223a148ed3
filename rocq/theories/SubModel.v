(** One subscription as a state machine: /repo/subscription.go and the parts of /repo/relay.go that drive it. *)
From Verif Require Import Base Machine.
Import ListNotations.

Section Sub.
(** Events are opaque here. *)
Variable E : Type.

(** The goroutine started by dispatchEvent (subscription.go:103-117). *)
Inductive tphase :=
| TWait        (* before sub.mu.Lock() *)
| TSend        (* in the select, lock held *)
| TCount       (* after the select or the live check, before storedwg.Done *)
| TRelease     (* before the deferred Unlock *)
| TDone.
Record task := mkT { t_ev : E; t_added : bool; t_ph : tphase }.

(** Callers of unsub: start() itself, Unsub() and other callers, and the goroutine of handleClosed. *)
Inductive kind := KStart | KUnsub | KClosed.
Inductive pc :=
| PWait        (* start(): <-sub.Context.Done(), subscription.go:82 *)
| PStore       (* handleClosed: sub.live.Store(false), subscription.go:134 *)
| PCancel      (* unsub: sub.cancel(err), :148 *)
| PCas         (* unsub: CompareAndSwap, :151 *)
| PClose       (* Close(), :160-166 *)
| PDelete      (* Subscriptions.Delete, :156 *)
| PLock        (* start(): sub.mu.Lock(), :88 *)
| PCloseCh     (* start(): close(sub.Events), :89 *)
| PUnlock      (* start(): sub.mu.Unlock(), :90 *)
| PEnd.
Record proc := mkP { p_kind : kind; p_pc : pc }.

Inductive holder := HTask (i : nat) | HProc (i : nat).

(** What can be seen from outside, newest first. Received events are numbered. *)
Inductive obs :=
| LFire                     (* live becomes true *)
| LOff                      (* live becomes false *)
| LCancel                   (* the context is cancelled *)
| LRecv (i : nat) (e : E)   (* dispatchEvent *)
| LEoseMsg                  (* the first dispatchEose *)
| LSignal                   (* EndOfStoredEvents receives *)
| LDeliver (i : nat) (e : E)
| LDrop (i : nat) (e : E)
| LCloseMsg                 (* a CLOSE is written *)
| LChanClose.               (* close(sub.Events) *)

Inductive waiter := WNone | WWait | WDone.

Record sub := mkS {
  s_live : bool; s_eosed : bool; s_cancelled : bool; s_deleted : bool; s_fired : bool;
  s_lock : option holder;
  s_wg : nat;               (* storedwg *)
  s_waiter : waiter;        (* the goroutine of dispatchEose *)
  s_closed : bool;          (* Events is closed *)
  s_crashed : bool;         (* send on closed channel, or closed twice *)
  s_reader : option E;      (* the reader has looked the subscription up and holds an event for it, relay.go:237-295 *)
  s_tasks : list task;
  s_procs : list proc;
  s_log : list obs
}.

(** PrepareSubscription, relay.go:429-472: not live, start() running. *)
Definition sub_init : sub :=
  mkS false false false false false None 0 WNone false false None [] [mkP KStart PWait] [].

Inductive choice := CSend | CDone.
Inductive action :=
| AFire                     (* Fire: sub.live.Store(true), subscription.go:186 *)
| AFireFailed               (* Fire: the write failed, sub.cancel(err), :189 *)
| ACtx                      (* the parent context ends *)
| ALoad (e : E)             (* reader: Subscriptions.Load finds it for an EVENT message *)
| ADispatch                 (* reader: dispatchEvent, subscription.go:96-118 *)
| AEose                     (* reader: dispatchEose, :120-128 *)
| ASignal                   (* the waiter goroutine *)
| ATask (i : nat) (c : choice)
| AUnsub | AClosed          (* a new caller of unsub *)
| AProc (i : nat) (connected : bool).

Definition log (s : sub) (o : obs) : list obs := o :: s_log s.
Definition set_task (s : sub) (i : nat) (ph : tphase) (t : task) : list task := upd (s_tasks s) i (mkT (t_ev t) (t_added t) ph).
Definition set_proc (s : sub) (i : nat) (p : proc) (c : pc) : list proc := upd (s_procs s) i (mkP (p_kind p) c).

(** One step of the goroutine of event [i]: subscription.go:104-116. *)
Definition task_step (i : nat) (t : task) (c : choice) (s : sub) : option sub :=
  match t_ph t with
  | TWait =>
      match s_lock s with
      | Some _ => None
      | None =>
          if s_live s
          then Some (mkS (s_live s) (s_eosed s) (s_cancelled s) (s_deleted s) (s_fired s) (Some (HTask i)) (s_wg s) (s_waiter s)
                         (s_closed s) (s_crashed s) (s_reader s) (set_task s i TSend t) (s_procs s) (s_log s))
          else Some (mkS (s_live s) (s_eosed s) (s_cancelled s) (s_deleted s) (s_fired s) (Some (HTask i)) (s_wg s) (s_waiter s)
                         (s_closed s) (s_crashed s) (s_reader s) (set_task s i TCount t) (s_procs s) (log s (LDrop i (t_ev t))))
      end
  | TSend =>
      match c with
      | CSend =>
          if s_closed s
          then Some (mkS (s_live s) (s_eosed s) (s_cancelled s) (s_deleted s) (s_fired s) (s_lock s) (s_wg s) (s_waiter s)
                         (s_closed s) true (s_reader s) (set_task s i TCount t) (s_procs s) (s_log s))
          else Some (mkS (s_live s) (s_eosed s) (s_cancelled s) (s_deleted s) (s_fired s) (s_lock s) (s_wg s) (s_waiter s)
                         (s_closed s) (s_crashed s) (s_reader s) (set_task s i TCount t) (s_procs s) (log s (LDeliver i (t_ev t))))
      | CDone =>
          if s_cancelled s
          then Some (mkS (s_live s) (s_eosed s) (s_cancelled s) (s_deleted s) (s_fired s) (s_lock s) (s_wg s) (s_waiter s)
                         (s_closed s) (s_crashed s) (s_reader s) (set_task s i TCount t) (s_procs s) (log s (LDrop i (t_ev t))))
          else None
      end
  | TCount =>
      Some (mkS (s_live s) (s_eosed s) (s_cancelled s) (s_deleted s) (s_fired s) (s_lock s)
                (if t_added t then s_wg s - 1 else s_wg s) (s_waiter s)
                (s_closed s) (s_crashed s) (s_reader s) (set_task s i TRelease t) (s_procs s) (s_log s))
  | TRelease =>
      Some (mkS (s_live s) (s_eosed s) (s_cancelled s) (s_deleted s) (s_fired s) None (s_wg s) (s_waiter s)
                (s_closed s) (s_crashed s) (s_reader s) (set_task s i TDone t) (s_procs s) (s_log s))
  | TDone => None
  end.

(** A state with only live, cancelled, deleted, lock, closed, crashed, procs and log changed. *)
Definition with_proc (s : sub) (live cancelled deleted : bool) (lock : option holder) (closed crashed : bool) (procs : list proc) (l : list obs) : sub :=
  mkS live (s_eosed s) cancelled deleted (s_fired s) lock (s_wg s) (s_waiter s) closed crashed (s_reader s) (s_tasks s) procs l.

(** One step of a caller of unsub: subscription.go:81-91, 131-137, 146-166. *)
Definition proc_step (i : nat) (p : proc) (connected : bool) (s : sub) : option sub :=
  let go c := set_proc s i p c in
  match p_pc p with
  | PWait => if s_cancelled s
             then Some (with_proc s (s_live s) (s_cancelled s) (s_deleted s) (s_lock s) (s_closed s) (s_crashed s) (go PCancel) (s_log s))
             else None
  | PStore => Some (with_proc s false (s_cancelled s) (s_deleted s) (s_lock s) (s_closed s) (s_crashed s) (go PCancel) (log s LOff))
  | PCancel => Some (with_proc s (s_live s) true (s_deleted s) (s_lock s) (s_closed s) (s_crashed s) (go PCas) (log s LCancel))
  | PCas => if s_live s
            then Some (with_proc s false (s_cancelled s) (s_deleted s) (s_lock s) (s_closed s) (s_crashed s) (go PClose) (log s LOff))
            else Some (with_proc s false (s_cancelled s) (s_deleted s) (s_lock s) (s_closed s) (s_crashed s) (go PDelete) (s_log s))
  | PClose => Some (with_proc s (s_live s) (s_cancelled s) (s_deleted s) (s_lock s) (s_closed s) (s_crashed s) (go PDelete)
                      (if connected then log s LCloseMsg else s_log s))
  | PDelete => Some (with_proc s (s_live s) (s_cancelled s) true (s_lock s) (s_closed s) (s_crashed s)
                      (go (match p_kind p with KStart => PLock | _ => PEnd end)) (s_log s))
  | PLock => match s_lock s with
             | Some _ => None
             | None => Some (with_proc s (s_live s) (s_cancelled s) (s_deleted s) (Some (HProc i)) (s_closed s) (s_crashed s) (go PCloseCh) (s_log s))
             end
  | PCloseCh => Some (with_proc s (s_live s) (s_cancelled s) (s_deleted s) (s_lock s) true (s_crashed s || s_closed s) (go PUnlock) (log s LChanClose))
  | PUnlock => Some (with_proc s (s_live s) (s_cancelled s) (s_deleted s) None (s_closed s) (s_crashed s) (go PEnd) (s_log s))
  | PEnd => None
  end.

(** Nothing happens after a crash: the program is gone. Fire is called once (Subscribe, relay.go:411-423). *)
Definition sub_step (a : action) (s : sub) : option sub :=
  if s_crashed s then None else
  match a with
  | AFire => if s_fired s then None
             else Some (mkS true (s_eosed s) (s_cancelled s) (s_deleted s) true (s_lock s) (s_wg s) (s_waiter s)
                            (s_closed s) (s_crashed s) (s_reader s) (s_tasks s) (s_procs s) (log s LFire))
  | AFireFailed => if s_fired s
                   then Some (with_proc s (s_live s) true (s_deleted s) (s_lock s) (s_closed s) (s_crashed s) (s_procs s) (log s LCancel))
                   else None
  | ACtx => Some (with_proc s (s_live s) true (s_deleted s) (s_lock s) (s_closed s) (s_crashed s) (s_procs s) (log s LCancel))
  | ALoad e => if s_deleted s then None
               else match s_reader s with
                    | Some _ => None
                    | None => Some (mkS (s_live s) (s_eosed s) (s_cancelled s) (s_deleted s) (s_fired s) (s_lock s) (s_wg s) (s_waiter s)
                                        (s_closed s) (s_crashed s) (Some e) (s_tasks s) (s_procs s) (s_log s))
                    end
  | ADispatch =>
      match s_reader s with
      | None => None
      | Some e =>
          Some (mkS (s_live s) (s_eosed s) (s_cancelled s) (s_deleted s) (s_fired s) (s_lock s)
                    (if s_eosed s then s_wg s else S (s_wg s)) (s_waiter s)
                    (s_closed s) (s_crashed s) None (s_tasks s ++ [mkT e (negb (s_eosed s)) TWait]) (s_procs s)
                    (log s (LRecv (length (s_tasks s)) e)))
      end
  | AEose =>
      match s_reader s with
      | Some _ => None
      | None => if s_eosed s then Some s
                else Some (mkS (s_live s) true (s_cancelled s) (s_deleted s) (s_fired s) (s_lock s) (s_wg s) WWait
                               (s_closed s) (s_crashed s) (s_reader s) (s_tasks s) (s_procs s) (log s LEoseMsg))
      end
  | ASignal =>
      match s_waiter s, s_wg s with
      | WWait, O => Some (mkS (s_live s) (s_eosed s) (s_cancelled s) (s_deleted s) (s_fired s) (s_lock s) (s_wg s) WDone
                              (s_closed s) (s_crashed s) (s_reader s) (s_tasks s) (s_procs s) (log s LSignal))
      | _, _ => None
      end
  | ATask i c => match nth_error (s_tasks s) i with Some t => task_step i t c s | None => None end
  | AUnsub => Some (with_proc s (s_live s) (s_cancelled s) (s_deleted s) (s_lock s) (s_closed s) (s_crashed s) (s_procs s ++ [mkP KUnsub PCancel]) (s_log s))
  | AClosed => Some (with_proc s (s_live s) (s_cancelled s) (s_deleted s) (s_lock s) (s_closed s) (s_crashed s) (s_procs s ++ [mkP KClosed PStore]) (s_log s))
  | AProc i connected => match nth_error (s_procs s) i with Some p => proc_step i p connected s | None => None end
  end.

(** What happened, in order. *)
Definition history (s : sub) : list obs := rev (s_log s).
End Sub.

Arguments mkT {E}. Arguments t_ev {E}. Arguments t_added {E}. Arguments t_ph {E}.
Arguments LFire {E}. Arguments LOff {E}. Arguments LCancel {E}. Arguments LRecv {E}. Arguments LEoseMsg {E}. Arguments LSignal {E}.
Arguments LDeliver {E}. Arguments LDrop {E}. Arguments LCloseMsg {E}. Arguments LChanClose {E}.
Arguments mkS {E}. Arguments s_live {E}. Arguments s_eosed {E}. Arguments s_cancelled {E}. Arguments s_deleted {E}. Arguments s_fired {E}.
Arguments s_lock {E}. Arguments s_wg {E}. Arguments s_waiter {E}. Arguments s_closed {E}. Arguments s_crashed {E}. Arguments s_reader {E}.
Arguments s_tasks {E}. Arguments s_procs {E}. Arguments s_log {E}. Arguments sub_init {E}.
Arguments AFire {E}. Arguments AFireFailed {E}. Arguments ACtx {E}. Arguments ALoad {E}. Arguments ADispatch {E}. Arguments AEose {E}.
Arguments ASignal {E}. Arguments ATask {E}. Arguments AUnsub {E}. Arguments AClosed {E}. Arguments AProc {E}.
Arguments sub_step {E}. Arguments history {E}. Arguments log {E}. Arguments set_task {E}. Arguments set_proc {E}. Arguments with_proc {E}.
Arguments task_step {E}. Arguments proc_step {E}.
