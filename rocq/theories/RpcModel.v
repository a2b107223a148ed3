(** nip46/client.go: the remote signer's client. Calls made at the same time, the goroutines that publish their requests, and the one goroutine that reads the answers. *)
From Verif Require Import Base Machine.
Import ListNotations.

(** client.go:233: serial.Add(1) for call number [n], counted from zero *)
Definition rpc_id (prefix : str) (n : nat) : str := prefix ++ B "-" ++ dec_Z (Z.of_nat (S n)).

(** Where a call is: before its first select (nip46/client.go:232-277), in it (279-284), in the second one (286-294), on its way out (260-263) *)
Inductive phase := PStart | PSelect1 | PSelect2 | PLeaving | PDeleted | PDone.
(** nip46/nip46.go Response as the reader gets it, decrypted and decoded. The error text is kept as a flag, and as the result of "auth_url" answers *)
Record answer := mkAns { an_id : str; an_error : bool; an_result : str }.
Record call := mkCall { cl_id : str; cl_phase : phase; cl_silent : nat (* goroutines that have not reached their select *); cl_published : nat; cl_ctx : bool (* done *); cl_result : option (outcome str) }.
Inductive reader := RIdle | RSending (i : nat) (a : answer) | RCrashed.
Record st := mkSt { s_calls : list call; s_reader : reader; s_got : list answer (* newest first *); s_expecting : list str; s_auths : list answer (* answers for which onAuth was called *) }.
Definition init : st := mkSt [] RIdle [] [] [].

Inductive action :=
| ACall (relays : nat)          (* 233-277: a new call takes its number and registers, in one step; that many relays will connect *)
| AEnter (i : nat)              (* its goroutine arrives at the first select *)
| AConnected (i : nat)          (* 267-276: a relay's goroutine passes its select and publishes *)
| ACancel (i : nat)             (* the context of the call ends *)
| AGiveUp (i : nat)             (* the ctx.Done case of either select *)
| ARead (a : answer)            (* 122-150: the reader gets an answer and looks its id up *)
| ADeliver                      (* 151 with 289: the answer is handed over *)
| ACrash                        (* 151: sending on a closed channel *)
| ADelete (i : nat) | AClose (i : nat). (* 261-262 *)

(** nip46/client.go:150, 259, 261: the listeners map *)
Definition registered (c : call) : bool := match cl_phase c with PDeleted | PDone => false | _ => true end.
Fixpoint find_call (id : str) (l : list call) : option nat :=
  match l with [] => None | c :: r => if seqb (cl_id c) id && registered c then Some 0 else option_map S (find_call id r) end.
Definition set_phase (c : call) (p : phase) : call := mkCall (cl_id c) p (cl_silent c) (cl_published c) (cl_ctx c) (cl_result c).
Definition put (s : st) (i : nat) (c : call) : st := mkSt (upd (s_calls s) i c) (s_reader s) (s_got s) (s_expecting s) (s_auths s).
Definition set_reader (s : st) (r : reader) : st := mkSt (s_calls s) r (s_got s) (s_expecting s) (s_auths s).
(** nip46/client.go:290-293 *)
Definition return_value (a : answer) : outcome str := if an_error a then Err else Ok (an_result a).

(** nip46/client.go:106-156, 232-295, one action at a time *)
Definition step (prefix : str) (a : action) (s : st) : option st :=
  match a with
  | ACall relays => Some (mkSt (s_calls s ++ [mkCall (rpc_id prefix (length (s_calls s))) PStart relays 0 false None]) (s_reader s) (s_got s) (s_expecting s) (s_auths s))
  | AEnter i => match nth_error (s_calls s) i with
      | Some c => match cl_phase c with PStart => Some (put s i (set_phase c PSelect1)) | _ => None end
      | None => None end
  | AConnected i => match nth_error (s_calls s) i with
      | Some c => match cl_silent c with
          | O => None
          | S k => (* 270-273: the signal is taken only by a call that already waits for it *)
            let p := match cl_phase c with PSelect1 => PSelect2 | p => p end in
            Some (put s i (mkCall (cl_id c) p k (S (cl_published c)) (cl_ctx c) (cl_result c)))
          end
      | None => None end
  | ACancel i => match nth_error (s_calls s) i with
      | Some c => Some (put s i (mkCall (cl_id c) (cl_phase c) (cl_silent c) (cl_published c) true (cl_result c)))
      | None => None end
  | AGiveUp i => match nth_error (s_calls s) i with
      | Some c => if cl_ctx c then match cl_phase c with
                    | PSelect1 | PSelect2 => Some (put s i (mkCall (cl_id c) PLeaving (cl_silent c) (cl_published c) (cl_ctx c) (Some Err)))
                    | _ => None end else None
      | None => None end
  | ARead a => match s_reader s with
      | RIdle =>
        let s' := mkSt (s_calls s) RIdle (a :: s_got s) (s_expecting s) (s_auths s) in
        if seqb (an_result a) (B "auth_url") then
          (if existsb (seqb (an_id a)) (s_expecting s) then Some (mkSt (s_calls s) RIdle (a :: s_got s) (s_expecting s) (a :: s_auths s)) else Some s')
        else match find_call (an_id a) (s_calls s) with Some i => Some (set_reader s' (RSending i a)) | None => Some s' end
      | _ => None end
  | ADeliver => match s_reader s with
      | RSending i a => match nth_error (s_calls s) i with
          | Some c => match cl_phase c with
              | PSelect2 => Some (set_reader (put s i (mkCall (cl_id c) PLeaving (cl_silent c) (cl_published c) (cl_ctx c) (Some (return_value a)))) RIdle)
              | _ => None end
          | None => None end
      | _ => None end
  | ACrash => match s_reader s with
      | RSending i a => match nth_error (s_calls s) i with
          | Some c => match cl_phase c with PDone => Some (set_reader s RCrashed) | _ => None end
          | None => None end
      | _ => None end
  | ADelete i => match nth_error (s_calls s) i with
      | Some c => match cl_phase c with PLeaving => Some (put s i (set_phase c PDeleted)) | _ => None end
      | None => None end
  | AClose i => match nth_error (s_calls s) i with
      | Some c => match cl_phase c with PDeleted => Some (put s i (set_phase c PDone)) | _ => None end
      | None => None end
  end.
