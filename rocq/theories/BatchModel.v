(** Batched queries and the query for one event: /repo/pool.go:590-688, 731-787. *)
From Verif Require Import Base Machine PoolModel.
Import ListNotations.

(** ** BatchedSubManyEose, pool.go:747-787. For each directed filter one goroutine (lines 758-778) ranges over the channel of a query of its
    own over one relay (subManyEoseNonOverwriteCheckDuplicate, pool.go:602-688, as in PoolModel: [rq] is that query's goroutine); all of them
    share the ids seen. [bf_shut]: the query's channel is closed. The observations are those of PoolModel; ODeliver is a send on res. *)
Inductive ophase := ORange | OSend (id : str) (stored : bool) | OLeft.
Record bf := mkBF { bf_in : rq; bf_shut : bool; bf_out : ophase }.
Record bstate := mkBatch { b_fs : list bf; b_seen : list str; b_ctx : bool; b_closed : bool; b_log : list qobs }.
Inductive baction :=
| BStart (i : nat) (ok : bool)              (* EnsureRelay and Subscribe *)
| BMsg (i : nat) (id : str) (good : bool)
| BEose (i : nat)
| BTake (i k : nat)                         (* case evt := <-sub.Events *)
| BPass (i : nat)                           (* events <- ie, received by the range of line 760 *)
| BInEnd (i : nat)                          (* case <-sub.EndOfStoredEvents *)
| BEarly (i : nat)                          (* case <-sub.ClosedReason, or sub.Events closed *)
| BRetry (i : nat)                          (* auth and goto subscribe *)
| BInCtx (i : nat)                          (* case <-ctx.Done() in the query *)
| BShut (i : nat)                           (* wg.Wait(); cancel; close(events) of the query *)
| BSend (i : nat)                           (* case res <- ie, line 771 *)
| BRangeEnd (i : nat)                       (* the range ends; wg.Done(), line 777 *)
| BLeave (i : nat)                          (* case <-ctx.Done(), lines 772-774 *)
| BCancel                                   (* the caller's context ends *)
| BClose.                                   (* wg.Wait(); close(res), lines 781-784 *)
Definition has_left (f : bf) : bool := match bf_out f with OLeft => true | _ => false end.
Definition set_bf (s : bstate) (i : nat) (f : bf) (log : list qobs) : bstate :=
  mkBatch (upd (b_fs s) i f) (b_seen s) (b_ctx s) (b_closed s) (log ++ b_log s).
Definition batch_step (a : baction) (s : bstate) : option bstate :=
  let on i (g : bf -> option bstate) := match nth_error (b_fs s) i with Some f => g f | None => None end in
  match a with
  | BStart i ok => on i (fun f =>
      match rq_ph (bf_in f) with
      | QConnecting => if ok then Some (set_bf s i (mkBF (mkRQ QRunning (rq_pending (bf_in f)) (rq_eose (bf_in f))) (bf_shut f) (bf_out f)) [])
                       else Some (set_bf s i (mkBF (mkRQ QDone [] false) (bf_shut f) (bf_out f)) [OEarly i])
      | _ => None
      end)
  | BMsg i id good => on i (fun f =>
      if is_connecting (bf_in f) then None else
        let o := OMsg i id good (rq_eose (bf_in f) || is_done (bf_in f)) in
        if existsb (seqb id) (b_seen s) then Some (mkBatch (b_fs s) (b_seen s) (b_ctx s) (b_closed s) (o :: b_log s))
        else if good then Some (mkBatch (upd (b_fs s) i (mkBF (mkRQ (rq_ph (bf_in f)) (rq_pending (bf_in f) ++ [(id, negb (rq_eose (bf_in f)))]) (rq_eose (bf_in f))) (bf_shut f) (bf_out f)))
                                        (id :: b_seen s) (b_ctx s) (b_closed s) (o :: b_log s))
        else Some (mkBatch (b_fs s) (id :: b_seen s) (b_ctx s) (b_closed s) (o :: b_log s)))
  | BEose i => on i (fun f => if is_connecting (bf_in f) then None else Some (set_bf s i (mkBF (mkRQ (rq_ph (bf_in f)) (rq_pending (bf_in f)) true) (bf_shut f) (bf_out f)) []))
  | BTake i k => on i (fun f =>
      match rq_ph (bf_in f), nth_error (rq_pending (bf_in f)) k with
      | QRunning, Some (id, st) => Some (set_bf s i (mkBF (mkRQ (QHold id st) (remove_nth k (rq_pending (bf_in f))) (rq_eose (bf_in f))) (bf_shut f) (bf_out f)) [])
      | _, _ => None
      end)
  | BPass i => on i (fun f =>
      match rq_ph (bf_in f), bf_out f with
      | QHold id st, ORange => Some (set_bf s i (mkBF (mkRQ QRunning (rq_pending (bf_in f)) (rq_eose (bf_in f))) (bf_shut f) (OSend id st)) [])
      | _, _ => None
      end)
  | BInEnd i => on i (fun f =>
      match rq_ph (bf_in f) with
      | QRunning => if rq_eose (bf_in f) && negb (existsb snd (rq_pending (bf_in f)))
                    then Some (set_bf s i (mkBF (mkRQ QDone (rq_pending (bf_in f)) (rq_eose (bf_in f))) (bf_shut f) (bf_out f)) []) else None
      | _ => None
      end)
  | BEarly i => on i (fun f =>
      match rq_ph (bf_in f) with
      | QRunning => Some (set_bf s i (mkBF (mkRQ QDone (rq_pending (bf_in f)) (rq_eose (bf_in f))) (bf_shut f) (bf_out f)) [OEarly i])
      | _ => None
      end)
  | BRetry i => on i (fun f =>
      match rq_ph (bf_in f) with QRunning => Some (set_bf s i (mkBF (mkRQ QRunning [] false) (bf_shut f) (bf_out f)) [OEarly i]) | _ => None end)
  | BInCtx i => on i (fun f =>
      if b_ctx s then
        match rq_ph (bf_in f) with
        | QRunning | QHold _ _ => Some (set_bf s i (mkBF (mkRQ QDone (rq_pending (bf_in f)) (rq_eose (bf_in f))) (bf_shut f) (bf_out f)) [])
        | _ => None
        end
      else None)
  | BShut i => on i (fun f => if is_done (bf_in f) && negb (bf_shut f) then Some (set_bf s i (mkBF (bf_in f) true (bf_out f)) []) else None)
  | BSend i => on i (fun f => match bf_out f with OSend id st => Some (set_bf s i (mkBF (bf_in f) (bf_shut f) ORange) [ODeliver i id]) | _ => None end)
  | BRangeEnd i => on i (fun f => match bf_out f with ORange => if bf_shut f then Some (set_bf s i (mkBF (bf_in f) (bf_shut f) OLeft) []) else None | _ => None end)
  | BLeave i => on i (fun f => if b_ctx s then match bf_out f with OSend _ _ => Some (set_bf s i (mkBF (bf_in f) (bf_shut f) OLeft) []) | _ => None end else None)
  | BCancel => Some (mkBatch (b_fs s) (b_seen s) true (b_closed s) (OCancel :: b_log s))
  | BClose => if forallb has_left (b_fs s) && negb (b_closed s) then Some (mkBatch (b_fs s) (b_seen s) (b_ctx s) true (OClose :: b_log s)) else None
  end.
Definition batch_init (n : nat) : bstate := mkBatch (repeat (mkBF (mkRQ QConnecting [] false) false ORange) n) [] false false [].

(** ** QuerySingle, pool.go:731-744, over the query of PoolModel with a context of its own. *)
Inductive single_phase := SWaiting | SGot (id : str) | SReturned (r : option str).
Record sstate := mkSingle { ss_q : qstate; ss_ph : single_phase }.
Inductive saction :=
| SQuery (a : qaction)      (* any move of the query but a send to the caller; YCancel: the caller's own context ends *)
| SFirst (i : nat)          (* the range receives its first event *)
| SCancel                   (* cancel(...) and return &ievt *)
| SNothing.                 (* the range ends; cancel(...) and return nil *)
Definition single_step (a : saction) (s : sstate) : option sstate :=
  match a with
  | SQuery (YDeliver _) => None
  | SQuery a => match query_step a (ss_q s) with Some q => Some (mkSingle q (ss_ph s)) | None => None end
  | SFirst i =>
      match ss_ph s, nth_error (q_relays (ss_q s)) i with
      | SWaiting, Some r => match rq_ph r, query_step (YDeliver i) (ss_q s) with QHold id _, Some q => Some (mkSingle q (SGot id)) | _, _ => None end
      | _, _ => None
      end
  | SCancel =>
      match ss_ph s with
      | SGot id => Some (mkSingle (match query_step YCancel (ss_q s) with Some q => q | None => ss_q s end) (SReturned (Some id)))
      | _ => None
      end
  | SNothing => match ss_ph s with SWaiting => if q_closed (ss_q s) then Some (mkSingle (ss_q s) (SReturned None)) else None | _ => None end
  end.
Definition single_init (n : nat) : sstate := mkSingle (query_init n) SWaiting.

(** ** opts = append(opts, wcd), pool.go:615 (likewise pool.go:331 and 493). A Go slice: an array, of which [sl_len] elements are used.
    [mem]: the arrays, by number; the options are represented by numbers. *)
Record slice := mkSlice { sl_arr : nat; sl_len : nat }.
Definition arrays := list (list nat).
Definition arr_of (m : arrays) (a : nat) : list nat := match nth_error m a with Some l => l | None => [] end.
Definition contents (m : arrays) (s : slice) : list nat := firstn (sl_len s) (arr_of m (sl_arr s)).
(** append: in place when the array has room, otherwise into a new array (the room left in that one does not matter here) *)
Definition append_one (m : arrays) (s : slice) (x : nat) : arrays * slice :=
  if Nat.ltb (sl_len s) (length (arr_of m (sl_arr s))) then (upd m (sl_arr s) (upd (arr_of m (sl_arr s)) (sl_len s) x), mkSlice (sl_arr s) (S (sl_len s)))
  else (m ++ [contents m s ++ [x]], mkSlice (length m) (S (sl_len s))).
