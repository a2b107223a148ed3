(** What a client asks a remote signer for: /repo/nip46/client.go:159-231, on the parts modelled in SignerModel and BunkerModel. *)
From Verif Require Import Base EventModel JLexModel CryptoModel Nip19Model SignerModel BunkerModel.
Import ListNotations.

(** nip46/client.go:159-231 and 78: the methods and their parameters *)
Inductive ccall := CPing | CPublicKey | CSign (e : event) | CEnc44 (target plain : str) | CDec44 (target text : str) | CEnc04 (target plain : str) | CDec04 (target text : str).
Definition ccall_method (k : ccall) : str :=
  match k with
  | CPing => B "ping"                   (* client.go:160 *)
  | CPublicKey => B "get_public_key"    (* client.go:171 *)
  | CSign _ => B "sign_event"           (* client.go:177 *)
  | CEnc44 _ _ => B "nip44_encrypt"     (* client.go:205 *)
  | CDec44 _ _ => B "nip44_decrypt"     (* client.go:213 *)
  | CEnc04 _ _ => B "nip04_encrypt"     (* client.go:221 *)
  | CDec04 _ _ => B "nip04_decrypt"     (* client.go:229 *)
  end.
Definition ccall_params (k : ccall) : list str :=
  match k with
  | CPing | CPublicKey => []
  | CSign e => [encode_event e]
  | CEnc44 t x | CDec44 t x | CEnc04 t x | CDec04 t x => [t; x]
  end.
(** nip46/client.go:141-153, 286-294: what the call with this id makes of an answer; None: nothing, it goes on waiting. Simplification: one call at a time, see RpcModel for many. *)
Definition heard (id : str) (r : option response) : option (outcome str) :=
  match r with
  | Some r => if seqb (rs_result r) (B "auth_url") then None else if seqb (rs_id r) id then Some (if rs_error r then Err else Ok (rs_result r)) else None
  | None => None
  end.
Section Calls.
Variable c : prims.
Variable enc_req : request -> str.
Variable dec_resp : str -> option response.
(** nip46/client.go:232-295 with a signer that gets every request and whose answers all arrive; an error of the signer is no answer *)
Definition remote (b : bclient) (signer : event -> outcome event) (id : str) (k : ccall) (now : Z) (nonce : str) : outcome (option (outcome str)) :=
  obind (rpc_event c enc_req b id (ccall_method k) (ccall_params k) now nonce) (fun e =>
  match signer e with
  | Ok ev => obind (client_read c dec_resp b ev) (fun r => Ok (heard id r))
  | Err => Ok None
  | Panic => Panic
  end).
End Calls.
(** nip46/client.go:167-174, called with these answers of RPC (one for each call, used if it asks). RPC gives "" with an error. True: it asked *)
Fixpoint public_keys (cached : str) (answers : list (outcome str)) : list (outcome str * bool) :=
  match answers with
  | [] => []
  | a :: r => if negb (empty cached) then (Ok cached, false) :: public_keys cached r
              else (a, true) :: public_keys (match a with Ok x => x | _ => [] end) r
  end.
