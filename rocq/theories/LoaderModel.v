(** Batched loading, /repo/sdk/dataloader/dataloader.go. *)
From Verif Require Import Base Machine.
Import ListNotations.

Section Loader.
Variables (K V : Type).
(** The batch function: given the keys, a map from keys to results (data and error together in [V]); None: no entry. It always returns. *)
Variable fn : list K -> K -> option V.
Variable cap : nat.   (* batchCap, 0 for unbounded *)

(** A batcher (dataloader.go:127-140) and the goroutine made with its first request (dataloader.go:82-110).
    BIdle: no goroutine yet; BWait: in the select; BLock: the timer was chosen, wants the lock; BReady: past the select;
    BAnswer: the batch function has returned, these are still to be answered. *)
Inductive bphase := BIdle | BWait | BLock | BReady | BAnswer (todo : list (nat * K)).
Record batch := mkBatch { b_reqs : list (nat * K); b_full : bool; b_ph : bphase }.
Inductive lobs := LCalled (keys : list K) | LAnswered (caller : nat) (v : option V).   (* None: NoValueError *)
(** [l_keys]: the keys of the callers, in the order in which they got the lock. *)
Record lstate := mkL { l_keys : list K; l_bs : list batch; l_cur : nat; l_log : list lobs }.
Inductive laction := LLoad (k : K) | LThreshold (b : nat) | LTimer (b : nat) | LSwap (b : nat) | LCall (b : nat) | LAnswer (b : nat).
Definition new_batch : batch := mkBatch [] false BIdle.

Definition loader_step (a : laction) (s : lstate) : option lstate :=
  let on i (f : batch -> option lstate) := match nth_error (l_bs s) i with Some b => f b | None => None end in
  match a with
  | LLoad k => (* dataloader.go:79-118, under the lock *)
      on (l_cur s) (fun b =>
        let reqs := b_reqs b ++ [(length (l_keys s), k)] in
        let ph := match b_reqs b with [] => BWait | _ => b_ph b end in
        if Nat.eqb (length reqs) cap
        then Some (mkL (l_keys s ++ [k]) (upd (l_bs s) (l_cur s) (mkBatch reqs true ph) ++ [new_batch]) (length (l_bs s)) (l_log s))
        else Some (mkL (l_keys s ++ [k]) (upd (l_bs s) (l_cur s) (mkBatch reqs (b_full b) ph)) (l_cur s) (l_log s)))
  | LThreshold i => on i (fun b => match b_ph b with
      | BWait => if b_full b then Some (mkL (l_keys s) (upd (l_bs s) i (mkBatch (b_reqs b) (b_full b) BReady)) (l_cur s) (l_log s)) else None
      | _ => None end)
  | LTimer i => on i (fun b => match b_ph b with
      | BWait => Some (mkL (l_keys s) (upd (l_bs s) i (mkBatch (b_reqs b) (b_full b) BLock)) (l_cur s) (l_log s))
      | _ => None end)
  | LSwap i => on i (fun b => match b_ph b with   (* the current batcher is replaced, whichever it is *)
      | BLock => Some (mkL (l_keys s) (upd (l_bs s) i (mkBatch (b_reqs b) (b_full b) BReady) ++ [new_batch]) (length (l_bs s)) (l_log s))
      | _ => None end)
  | LCall i => on i (fun b => match b_ph b with
      | BReady => Some (mkL (l_keys s) (upd (l_bs s) i (mkBatch (b_reqs b) (b_full b) (BAnswer (b_reqs b)))) (l_cur s) (LCalled (map snd (b_reqs b)) :: l_log s))
      | _ => None end)
  | LAnswer i => on i (fun b => match b_ph b with   (* send, if there is an entry, and close; the caller waits for it *)
      | BAnswer ((c, k) :: r) => Some (mkL (l_keys s) (upd (l_bs s) i (mkBatch (b_reqs b) (b_full b) (BAnswer r))) (l_cur s) (LAnswered c (fn (map snd (b_reqs b)) k) :: l_log s))
      | _ => None end)
  end.
Definition loader_init : lstate := mkL [] [new_batch] 0 [].
End Loader.
Arguments mkBatch {K}. Arguments b_reqs {K}. Arguments b_full {K}. Arguments b_ph {K}. Arguments BIdle {K}. Arguments BWait {K}. Arguments BLock {K}.
Arguments BReady {K}. Arguments BAnswer {K}. Arguments LCalled {K V}. Arguments LAnswered {K V}. Arguments mkL {K V}. Arguments l_keys {K V}. Arguments l_bs {K V}.
Arguments l_cur {K V}. Arguments l_log {K V}. Arguments LLoad {K}. Arguments LThreshold {K}. Arguments LTimer {K}. Arguments LSwap {K}. Arguments LCall {K}. Arguments LAnswer {K}.
Arguments new_batch {K}.
