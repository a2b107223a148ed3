(** Counting at one relay and at many: /repo/relay.go:305-308 and 522-563, /repo/pool.go:697-728. *)
From Verif Require Import Base Machine HllModel.
Import ListNotations.
Local Open Scope nat_scope.

(** ** countInternal and the goroutine that reads from the connection *)
(** Messages of the relay in the order in which they arrive: a COUNT reply with this subscription's id and a count, a CLOSED for it, or anything else. *)
Inductive cmsg := CReply (n : Z) | CClosed | COther.
(** The caller: in the select of relay.go:555-562, past it with its result and before the deferred unsub, or returned. None is the error of the context. *)
Inductive caller := Waiting | Leaving (r : option Z) | Left (r : option Z).
(** [c_reader]: the reader is at relay.go:307 with this reply, the channel has no buffer. [c_sub]: the subscription is in the map. [c_closing]: a goroutine of handleClosed has to run (subscription.go:123-129). *)
Record cst := mkCst { c_in : list cmsg; c_reader : option Z; c_sub : bool; c_closing : bool; c_caller : caller }.
Inductive cact := CRead | CHand | CTimeout | CUnsub | CGone.
Definition cstep (a : cact) (s : cst) : option cst :=
  match a with
  | CRead => (* relay.go:301-308 *)
    match c_reader s, c_in s with
    | None, CReply n :: l => Some (mkCst l (if c_sub s then Some n else None) (c_sub s) (c_closing s) (c_caller s))
    | None, CClosed :: l => Some (mkCst l None (c_sub s) (c_sub s || c_closing s) (c_caller s))
    | None, COther :: l => Some (mkCst l None (c_sub s) (c_closing s) (c_caller s))
    | _, _ => None
    end
  | CHand => match c_reader s, c_caller s with Some n, Waiting => Some (mkCst (c_in s) None (c_sub s) (c_closing s) (Leaving (Some n))) | _, _ => None end
  | CTimeout => match c_caller s with Waiting => Some (mkCst (c_in s) (c_reader s) (c_sub s) (c_closing s) (Leaving None)) | _ => None end
  | CUnsub => match c_caller s with Leaving r => Some (mkCst (c_in s) (c_reader s) false (c_closing s) (Left r)) | _ => None end
  | CGone => if c_closing s then Some (mkCst (c_in s) (c_reader s) false false (c_caller s)) else None
  end.
Definition cinit (l : list cmsg) : cst := mkCst l None true false Waiting.

(** ** CountMany: the goroutines that merge into one sketch, hll.go:39-45. Relays that fail or send no sketch of 256 bytes have no part in it (pool.go:711-721). *)
(** [m_at]: the index the loop is at; [m_go]: the comparison was true and the write is next. *)
Record mwk := mkMwk { m_other : registers; m_at : nat; m_go : bool }.
Record mst := mkMst { m_regs : registers; m_wks : list mwk }.
Inductive mact := MRead (i : nat) | MWrite (i : nat).
Definition mstep (a : mact) (s : mst) : option mst :=
  match a with
  | MRead i =>
    match nth_error (m_wks s) i with
    | Some (mkMwk o k false) =>
      match nth_error o k, nth_error (m_regs s) k with
      | Some v, Some r => Some (mkMst (m_regs s) (upd (m_wks s) i (if (r <? v)%N then mkMwk o k true else mkMwk o (S k) false)))
      | _, _ => None
      end
    | _ => None
    end
  | MWrite i =>
    match nth_error (m_wks s) i with
    | Some (mkMwk o k true) =>
      match nth_error o k with
      | Some v => Some (mkMst (upd (m_regs s) k v) (upd (m_wks s) i (mkMwk o (S k) false)))
      | None => None
      end
    | _ => None
    end
  end.
(** hll.go:17-26; one goroutine for each reply *)
Definition minit (replies : list registers) : mst := mkMst (repeat 0%N 256) (map (fun o => mkMwk o 0 false) replies).
(** wg.Wait (pool.go:726) *)
Definition mdone (s : mst) : Prop := Forall (fun w => m_at w = length (m_other w) /\ m_go w = false) (m_wks s).
(** As it would be with a lock around the comparison and the write: nobody compares while another is about to write. Not in the code. *)
Definition locked_step (a : mact) (s : mst) : option mst :=
  match a with MRead _ => if existsb m_go (m_wks s) then None else mstep a s | MWrite _ => mstep a s end.
