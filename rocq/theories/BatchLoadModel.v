(** Loading a batch of lists from the network, with its goroutines: /repo/sdk/replaceable_loader.go:63-142 and
    /repo/sdk/addressable_loader.go:43-134. The two are the same but for the counter of those still waiting: an atomic one in the
    first, a plain int in the second, whose three accesses are three steps here ([atomic] says which). The relays of a key and
    what the pool's channel carries come from outside. *)
From Verif Require Import Base Machine EventModel ListsModel.
Import ListNotations.

(** The goroutine of one key. *)
Inductive gphase :=
| GAsk              (* in determineRelaysToQuery, replaceable_loader.go:87 *)
| GWait             (* at <-ctx.Done(), :113; addressable_loader.go:94 *)
| GRead (v : nat)   (* addressable only, waiting--, :95: it has read [v] and not yet written *)
| GCheck            (* addressable only: before "if waiting == 0", :96 *)
| GEnd.
Inductive mphase :=
| MWait                                    (* wg.Wait(), replaceable_loader.go:121 *)
| MLoop (received : list event)            (* the loop of :125-141 *)
| MDone (received : list event).           (* returned *)
Record batch := mkB {
  b_go : list gphase;
  b_ctx : list bool;                       (* the callers' contexts that are done *)
  b_added : list (str * list str);         (* keys and relays in the order they took the lock cm, :89-108 *)
  b_wg : nat;
  b_waiting : nat;
  b_cancelled : bool;                      (* aggregatedContext is done *)
  b_main : mphase;
  b_closed : bool;                         (* the channel of BatchedSubManyEose is closed *)
  b_asked : option (list (str * list str)) (* the filters given to BatchedSubManyEose: relay and authors *)
}.
Definition batch_init (n : nat) : batch := mkB (repeat GAsk n) (repeat false n) [] n n false MWait false None.

Inductive baction :=
| BCtx (i : nat)                           (* the context of caller [i] ends *)
| BAsk (i : nat) (relays : list str)       (* goroutine [i]: relays found, filters extended under the lock, wg.Done(), :87-110 *)
| BDec (i : nat)                           (* replaceable: waiting.Add(-1) == 0, aggregatedCancel(), :113-116; addressable: the read of waiting--, :94-95 *)
| BWrite (i : nat)                         (* addressable: the write of waiting--, :95 *)
| BCheck (i : nat)                         (* addressable: if waiting == 0, :96-98 *)
| BStart                                   (* wg.Wait() returns, BatchedSubManyEose, :121-124 *)
| BEvent (e : event)                       (* the channel gives an event, :127-137 *)
| BClose                                   (* the pool closes the channel *)
| BReturn.                                 (* :128-130 or :138-139 *)

Section Step.
Variable atomic : bool.
Variable keys : list str.                  (* pubkeys, :66 *)
Definition b_done (b : batch) : bool := match b_main b with MDone _ => true | _ => false end.
(** Is the context of goroutine [i] done? The deferred cancels run when the function returns, :80-81. *)
Definition ctx_done (i : nat) (b : batch) : bool := nth i (b_ctx b) false || b_done b.
Definition with_go (b : batch) (i : nat) (g : gphase) (waiting : nat) (cancelled : bool) : batch :=
  mkB (upd (b_go b) i g) (b_ctx b) (b_added b) (b_wg b) waiting cancelled (b_main b) (b_closed b) (b_asked b).
Definition batch_step (a : baction) (b : batch) : option batch :=
  match a with
  | BCtx i => if (i <? length (b_ctx b))%nat then Some (mkB (b_go b) (upd (b_ctx b) i true) (b_added b) (b_wg b) (b_waiting b) (b_cancelled b) (b_main b) (b_closed b) (b_asked b)) else None
  | BAsk i relays =>
      match nth_error (b_go b) i, nth_error keys i with
      | Some GAsk, Some k => Some (mkB (upd (b_go b) i GWait) (b_ctx b) (b_added b ++ [(k, relays)]) (b_wg b - 1) (b_waiting b) (b_cancelled b) (b_main b) (b_closed b) (b_asked b))
      | _, _ => None
      end
  | BDec i =>
      match nth_error (b_go b) i with
      | Some GWait =>
          if ctx_done i b then
            if atomic then Some (with_go b i GEnd (b_waiting b - 1) (b_cancelled b || (b_waiting b - 1 =? 0)%nat))
            else Some (with_go b i (GRead (b_waiting b)) (b_waiting b) (b_cancelled b))
          else None
      | _ => None
      end
  | BWrite i => match nth_error (b_go b) i with Some (GRead v) => Some (with_go b i GCheck (v - 1) (b_cancelled b)) | _ => None end
  | BCheck i => match nth_error (b_go b) i with Some GCheck => Some (with_go b i GEnd (b_waiting b) (b_cancelled b || (b_waiting b =? 0)%nat)) | _ => None end
  | BStart =>
      match b_main b, b_wg b with
      | MWait, O => Some (mkB (b_go b) (b_ctx b) (b_added b) (b_wg b) (b_waiting b) (b_cancelled b) (MLoop []) (b_closed b) (Some (relay_filters (b_added b))))
      | _, _ => None
      end
  | BEvent e => match b_main b with
      | MLoop l => if b_closed b then None else Some (mkB (b_go b) (b_ctx b) (b_added b) (b_wg b) (b_waiting b) (b_cancelled b) (MLoop (l ++ [e])) (b_closed b) (b_asked b))
      | _ => None end
  | BClose => match b_main b with
      | MLoop l => Some (mkB (b_go b) (b_ctx b) (b_added b) (b_wg b) (b_waiting b) (b_cancelled b) (b_main b) true (b_asked b))
      | _ => None end
  | BReturn => match b_main b with
      | MLoop l => if b_closed b || b_cancelled b then Some (mkB (b_go b) (b_ctx b) (b_added b) (b_wg b) (b_waiting b) (b_cancelled b) (MDone l) (b_closed b) (b_asked b)) else None
      | _ => None end
  end.
End Step.

(** What the two functions return. *)
Definition repl_result (b : batch) : option (list (str * event)) := match b_main b with MDone l => Some (repl_load l) | _ => None end.
Definition addr_result (b : batch) : option (list (str * list event)) := match b_main b with MDone l => Some (addr_load l) | _ => None end.
