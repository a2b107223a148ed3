(** Requests to a mint: /repo/nip60/client/client.go. *)
From Verif Require Import Base Machine HttpUrlModel.
Import ListNotations.
Local Open Scope nat_scope.

(** ** What is asked for: client.go:21-154. Simplification: the bodies of the posted requests are given as their JSON text. *)
Inductive mcall :=
| GetInfo | GetKeys | GetKeysets | GetKeysById (id : str)
| PostMintQuote (body : str) | GetMintQuote (id : str) | PostMint (body : str) | PostSwap (body : str)
| PostMeltQuote (body : str) | GetMeltQuote (id : str) | PostMelt (body : str) | PostCheck (body : str) | PostRestore (body : str).
Definition mcall_path (c : mcall) : str :=
  match c with
  | GetInfo => B "/v1/info"                                         (* client.go:23 *)
  | GetKeys => B "/v1/keys"                                         (* client.go:31 *)
  | GetKeysets => B "/v1/keysets"                                   (* client.go:46 *)
  | GetKeysById id => B "/v1/keys/" ++ id                           (* client.go:54 *)
  | PostMintQuote _ => B "/v1/mint/quote/bolt11"                    (* client.go:66 *)
  | GetMintQuote id => B "/v1/mint/quote/bolt11/" ++ id             (* client.go:74 *)
  | PostMint _ => B "/v1/mint/bolt11"                               (* client.go:86 *)
  | PostSwap _ => B "/v1/swap"                                      (* client.go:94 *)
  | PostMeltQuote _ => B "/v1/melt/quote/bolt11"                    (* client.go:106 *)
  | GetMeltQuote id => B "/v1/melt/quote/bolt11/" ++ id             (* client.go:114 *)
  | PostMelt _ => B "/v1/melt/bolt11"                               (* client.go:126 *)
  | PostCheck _ => B "/v1/checkstate"                               (* client.go:138 *)
  | PostRestore _ => B "/v1/restore"                                (* client.go:150 *)
  end.
Definition mcall_body (c : mcall) : option str :=
  match c with
  | PostMintQuote b | PostMint b | PostSwap b | PostMeltQuote b | PostMelt b | PostCheck b | PostRestore b => Some b
  | _ => None
  end.
Definition mcall_url (mint : str) (c : mcall) : str := mint ++ mcall_path c.

(** ** httpPost, client.go:170-190: one goroutine writes the body into a pipe, the other makes the request and reads from it.
    [po_text]: the JSON of the data, None if it has none; [po_url_ok]: NewRequestWithContext takes the url. *)
Record post := mkPost { po_text : option str; po_url_ok : bool }.
Inductive writer := WEncode | WWrite (left : str) | WClose | WDone.
Inductive caller := CNew | CDo | CEnd (answer : option (Z * str)).
(** [ps_got]: what the server has read so far; [ps_eof]: it has seen the end; [ps_shut]: the reading end of the pipe is closed. *)
Record pstate := mkPS { ps_writer : writer; ps_caller : caller; ps_got : str; ps_eof : bool; ps_shut : bool }.
Definition p_start : pstate := mkPS WEncode CNew [] false false.
Inductive pact :=
| PEncode            (* json.NewEncoder(w).Encode(data): the text and a newline in one Write; its error is dropped *)
| PWriteFails        (* the reader is closed: Write returns *)
| PClose             (* w.Close() *)
| PNew               (* NewRequestWithContext *)
| PRead (n : nat)    (* the transport reads up to n bytes and sends them *)
| PEof               (* the transport reads the end of the body *)
| PAnswer (status : Z) (body : str)  (* the server answers, perhaps before it has read everything; the transport closes the body *)
| PFail.             (* the connection fails or the context ends; the transport closes the body *)
Definition pstep (p : post) (a : pact) (s : pstate) : option pstate :=
  match a with
  | PEncode => match ps_writer s with
               | WEncode => Some (mkPS (match po_text p with Some t => WWrite (t ++ [byte_of 10]) | None => WClose end) (ps_caller s) (ps_got s) (ps_eof s) (ps_shut s))
               | _ => None
               end
  | PWriteFails => match ps_writer s with
                   | WWrite _ => if ps_shut s then Some (mkPS WClose (ps_caller s) (ps_got s) (ps_eof s) (ps_shut s)) else None
                   | _ => None
                   end
  | PClose => match ps_writer s with WClose => Some (mkPS WDone (ps_caller s) (ps_got s) (ps_eof s) (ps_shut s)) | _ => None end
  | PNew => match ps_caller s with
            | CNew => Some (mkPS (ps_writer s) (if po_url_ok p then CDo else CEnd None) (ps_got s) (ps_eof s) (ps_shut s))
            | _ => None
            end
  | PRead n => match ps_caller s, ps_writer s with
               | CDo, WWrite l => if Nat.eqb n 0 then None else
                   Some (mkPS (match skipn n l with [] => WClose | l' => WWrite l' end) CDo (ps_got s ++ firstn n l) (ps_eof s) (ps_shut s))
               | _, _ => None
               end
  | PEof => match ps_caller s, ps_writer s with CDo, WDone => Some (mkPS WDone CDo (ps_got s) true (ps_shut s)) | _, _ => None end
  | PAnswer st b => match ps_caller s with CDo => Some (mkPS (ps_writer s) (CEnd (Some (st, b))) (ps_got s) (ps_eof s) true) | _ => None end
  | PFail => match ps_caller s with CDo => Some (mkPS (ps_writer s) (CEnd None) (ps_got s) (ps_eof s) true) | _ => None end
  end.
