(** Shared loading of the web-of-trust filter, /repo/sdk/wot.go:15-108. *)
From Verif Require Import Base Machine.
Import ListNotations.

(** PubKeyToShid, wot.go:13-16: digits 32 to 47 of the key as a number. strconv.ParseUint gives 0 for anything that is not hexadecimal (16 digits always fit);
    the slice panics when the key is shorter than 48. *)
Fixpoint hex_number (acc : Z) (s : str) : option Z :=
  match s with [] => Some acc | c :: r => match hex_val c with Some v => hex_number (16 * acc + Z.of_N v) r | None => None end end.
Definition pubkey_to_shid (pk : str) : outcome Z :=
  if Nat.ltb (length pk) 48 then Panic else Ok (match hex_number 0 (firstn 16 (skipn 32 pk)) with Some z => z | None => 0%Z end).

Section Wot.
Variables (P R : Type).   (* keys; what a call returns: a filter or an error *)
Variable shid : P -> Z.
(** A wotCall, wot.go:18-24. WSending: its mutex is held (wot.go:77-88) and these waiters are still to be sent to; WDone: its slot is nil again and done closed. *)
Inductive wstat := WOpen | WSending (r : R) (todo : list nat) | WDone.
Record wcall := mkCall { w_id : Z; w_waiters : list nat; w_st : wstat }.
(** Where a caller is: at [start]; past the global lock with the call it found; in the select; waiting for done; computing or sending; returned. *)
Inductive wphase := CStart | CGot (w : nat) | CWaiting (w : nat) | CAwait (w : nat) | COwner (w : nat) | CReturned (r : R).
Inductive wobs := OComputed (c : nat) (r : R) | OReturned (c : nat) (r : R).
Record wstate := mkW { w_callers : list (P * wphase); w_calls : list wcall; w_slots : Z -> option nat; w_log : list wobs }.
Inductive waction := WNew (p : P) | WLook (c : nat) | WJoin (c : nat) | WCompute (c : nat) (r : R) | WSend (c : nat) | WFinish (c : nat) | WAgain (c : nat).
Definition set_slot (f : Z -> option nat) (i : Z) (v : option nat) : Z -> option nat := fun j => if (j =? i)%Z then v else f j.
Definition slot_of (id : Z) : Z := (id mod 8)%Z.

Definition wot_step (a : waction) (s : wstate) : option wstate :=
  let on c (f : P -> wphase -> option wstate) := match nth_error (w_callers s) c with Some (p, ph) => f p ph | None => None end in
  let call w (f : wcall -> option wstate) := match nth_error (w_calls s) w with Some x => f x | None => None end in
  match a with
  | WNew p => Some (mkW (w_callers s ++ [(p, CStart)]) (w_calls s) (w_slots s) (w_log s))
  | WLook c => on c (fun p ph => match ph with   (* wot.go:37-53 *)
      | CStart => match w_slots s (slot_of (shid p)) with
        | None => Some (mkW (upd (w_callers s) c (p, COwner (length (w_calls s)))) (w_calls s ++ [mkCall (shid p) [] WOpen]) (set_slot (w_slots s) (slot_of (shid p)) (Some (length (w_calls s)))) (w_log s))
        | Some w => Some (mkW (upd (w_callers s) c (p, CGot w)) (w_calls s) (w_slots s) (w_log s))
        end
      | _ => None end)
  | WJoin c => on c (fun p ph => match ph with   (* wot.go:55-74 *)
      | CGot w => call w (fun x => match w_st x with
        | WSending _ _ => None
        | _ => if (w_id x =? shid p)%Z
               then Some (mkW (upd (w_callers s) c (p, CWaiting w)) (upd (w_calls s) w (mkCall (w_id x) (w_waiters x ++ [c]) (w_st x))) (w_slots s) (w_log s))
               else Some (mkW (upd (w_callers s) c (p, CAwait w)) (w_calls s) (w_slots s) (w_log s))
        end)
      | _ => None end)
  | WCompute c r => on c (fun p ph => match ph with   (* wot.go:78-86: loads, then locks *)
      | COwner w => call w (fun x => match w_st x with
        | WOpen => Some (mkW (w_callers s) (upd (w_calls s) w (mkCall (w_id x) (w_waiters x) (WSending r (w_waiters x)))) (w_slots s) (OComputed c r :: w_log s))
        | _ => None end)
      | _ => None end)
  | WSend c => on c (fun p ph => match ph with
      | COwner w => call w (fun x => match w_st x with
        | WSending r (d :: todo) => match nth_error (w_callers s) d with
          | Some (q, CWaiting w') => if Nat.eqb w' w then Some (mkW (upd (w_callers s) d (q, CReturned r)) (upd (w_calls s) w (mkCall (w_id x) (w_waiters x) (WSending r todo))) (w_slots s) (OReturned d r :: w_log s)) else None
          | _ => None end
        | _ => None end)
      | _ => None end)
  | WFinish c => on c (fun p ph => match ph with   (* wot.go:92-98 *)
      | COwner w => call w (fun x => match w_st x with
        | WSending r [] => Some (mkW (upd (w_callers s) c (p, CReturned r)) (upd (w_calls s) w (mkCall (w_id x) (w_waiters x) WDone)) (set_slot (w_slots s) (slot_of (shid p)) None) (OReturned c r :: w_log s))
        | _ => None end)
      | _ => None end)
  | WAgain c => on c (fun p ph => match ph with
      | CAwait w => call w (fun x => match w_st x with
        | WDone => Some (mkW (upd (w_callers s) c (p, CStart)) (w_calls s) (w_slots s) (w_log s))
        | _ => None end)
      | _ => None end)
  end.
Definition wot_init : wstate := mkW [] [] (fun _ => None) [].
End Wot.
Arguments WOpen {R}. Arguments WSending {R}. Arguments WDone {R}. Arguments mkCall {R}. Arguments w_id {R}. Arguments w_waiters {R}. Arguments w_st {R}.
Arguments CStart {R}. Arguments CGot {R}. Arguments CWaiting {R}. Arguments CAwait {R}. Arguments COwner {R}. Arguments CReturned {R}. Arguments OComputed {R}. Arguments OReturned {R}.
Arguments mkW {P R}. Arguments w_callers {P R}. Arguments w_calls {P R}. Arguments w_slots {P R}. Arguments w_log {P R}.
Arguments WNew {P R}. Arguments WLook {P R}. Arguments WJoin {P R}. Arguments WCompute {P R}. Arguments WSend {P R}. Arguments WFinish {P R}. Arguments WAgain {P R}.
