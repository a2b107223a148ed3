(** Remote signers: /repo/nip46/bunker_session.go, static-key-signer.go, dynamic-signer.go and the remote keyer /repo/keyer/bunker.go.
    Texts of errors are left out; the JSON of requests and responses (jsoniter) is a pair of parameters. Random nonces and times are arguments. *)
From Verif Require Import Base Machine EventModel TagsModel JLexModel CryptoModel Nip19Model GiftModel.
Import ListNotations.
Open Scope nat_scope.

(** ** The table of sessions: two slices side by side *)
(** slices.BinarySearch on strings: the loop of sort.Find. [fuel]: the interval shrinks in every round *)
Fixpoint sb_loop (fuel : nat) (x : list str) (target : str) (i j : nat) : nat :=
  match fuel with
  | O => i
  | S f =>
    if Nat.ltb i j then
      let h := (i + j) / 2 in
      match nth_error x h with
      | Some y => match scmp y target with Lt => sb_loop f x target (h + 1) j | _ => sb_loop f x target i h end
      | None => i
      end
    else i
  end.
Definition bin_search (x : list str) (target : str) : nat * bool :=
  let i := sb_loop (length x) x target 0 (length x) in
  (i, match nth_error x i with Some y => seqb y target | None => false end).
(** static-key-signer.go:71-77, dynamic-signer.go:84-90: append a zero, copy(l[idx+1:], l[idx:]), l[idx] = x *)
Definition insert_at {A} (l : list A) (zero x : A) (idx : nat) : list A :=
  let l1 := l ++ [zero] in
  let l2 := firstn (idx + 1) l1 ++ firstn (length l1 - (idx + 1)) (skipn idx l1) in
  upd l2 idx x.
(** bunker_session.go:11-15 *)
Record session := mkSession { ss_pub : str; ss_shared : str; ss_conv : str }.
Record table := mkTable { tb_keys : list str; tb_sessions : list session }.
Definition no_session : session := mkSession [] [] [].
(** static-key-signer.go:36-42, dynamic-signer.go:65-71: GetSession *)
Definition get_session (t : table) (client : str) : outcome (option session) :=
  let '(idx, found) := bin_search (tb_keys t) client in
  if found then match nth_error (tb_sessions t) idx with Some s => Ok (Some s) | None => Panic end else Ok None.
(** dynamic-signer.go:73-91: setSession; static-key-signer.go:71-77 once the key is known to be missing *)
Definition set_session (t : table) (client : str) (s : session) : table :=
  let '(idx, found) := bin_search (tb_keys t) client in
  if found then t else mkTable (insert_at (tb_keys t) [] client idx) (insert_at (tb_sessions t) no_session s idx).

(** nip46.go:15-31 *)
Record request := mkReq { rq_id : str; rq_method : str; rq_params : list str }.
Record response := mkResp { rs_id : str; rs_error : bool; rs_result : str }.
Definition no_response : response := mkResp [] false [].

Section Signer.
Variable c : prims.
Variable dec_req : str -> option request.
Variable enc_resp : response -> str.
Definition pub_ok (pk : str) : bool := valid_pubkey (fun b => match p_parse_pk c b with Some _ => true | None => false end) pk.

(** bunker_session.go:22-37 *)
Definition parse_request (s : session) (content : str) : outcome request :=
  obind (match decrypt44 c content (ss_conv s) with Err => decrypt04 c content (ss_shared s) | r => r end)
    (fun plain => match dec_req plain with Some r => Ok r | None => Err end).
(** bunker_session.go:39-68 *)
Definition make_response (s : session) (id requester result : str) (err : bool) (now : Z) (nonce : str) : outcome (response * event) :=
  let resp := if err then mkResp id true [] else if negb (empty result) then mkResp id false result else no_response in
  obind (encrypt44 c (enc_resp resp) (ss_conv s) nonce) (fun ct => Ok (resp, mkEvent [] [] now 24133 [[B "p"; requester]] ct [])).

Inductive answer := AUnknown | AAnswer (result : str) (err : bool).
Definition failed : answer := AAnswer [] true.
Definition answer_of (r : outcome str) : outcome answer := match r with Ok x => Ok (AAnswer x false) | Err => Ok failed | Panic => Panic end.
(** static-key-signer.go:144-159 and the like: two arguments, the first a public key *)
Definition two_args (req : request) (f : str -> str -> outcome str) : outcome answer :=
  match rq_params req with
  | [third; arg] => if pub_ok third then answer_of (f third arg) else Ok failed
  | _ => Ok failed
  end.
Definition one_arg (req : request) (f : str -> outcome str) : outcome answer :=
  match rq_params req with [arg] => answer_of (f arg) | _ => Ok failed end.
(** random values of one request: the nonce of the reply, the nonce and iv of an encryption asked for, the time *)
Record draws := mkD { d_reply : str; d_nonce : str; d_iv : str; d_now : Z }.

(** static-key-signer.go:16-26; None: no authoriser. The relays to advertise as their JSON *)
Record static := mkStatic { st_sk : str; st_relays : str; st_auth : option (bool -> str -> str -> bool) }.
(** static-key-signer.go:44-80 *)
Definition get_or_create (sk : str) (t : table) (client : str) : outcome session * table :=
  match get_session t client with
  | Ok (Some s) => (Ok s, t)
  | Ok None =>
    match obind (p_shared c client sk) (fun sh => obind (p_conv c client sk) (fun ck => obind (public_key c sk) (fun pk => Ok (mkSession pk sh ck)))) with
    | Ok s => (Ok s, set_session t client s)
    | r => (r, t)
    end
  | Panic => (Panic, t)
  | Err => (Err, t)
  end.
(** static-key-signer.go:109-256, the switch *)
Definition static_answer (st : static) (s : session) (req : request) (d : draws) : outcome answer :=
  let m := rq_method req in
  if seqb m (B "connect") then Ok (AAnswer (B "ack") false)
  else if seqb m (B "get_public_key") then Ok (AAnswer (ss_pub s) false)
  else if seqb m (B "sign_event") then one_arg req (fun j => obind (decode_event j) (fun e => obind (sign_with c (st_sk st) e) (fun e' => Ok (encode_event e'))))
  else if seqb m (B "get_relays") then Ok (AAnswer (st_relays st) false)
  else if seqb m (B "nip44_encrypt") then two_args req (fun third plain => obind (p_conv c third (st_sk st)) (fun k => encrypt44 c plain k (d_nonce d)))
  else if seqb m (B "nip44_decrypt") then two_args req (fun third text => obind (p_conv c third (st_sk st)) (fun k => decrypt44 c text k))
  else if seqb m (B "nip04_encrypt") then two_args req (fun third plain => obind (p_shared c third (st_sk st)) (fun k => encrypt04 c plain k (d_iv d)))
  else if seqb m (B "nip04_decrypt") then two_args req (fun third text => obind (p_shared c third (st_sk st)) (fun k => decrypt04 c text k))
  else if seqb m (B "ping") then Ok (AAnswer (B "pong") false)
  else Ok AUnknown.
(** static-key-signer.go:110-116, 120, 141, 250: what the authoriser is told *)
Definition static_secret (req : request) : str := if seqb (rq_method req) (B "connect") then match rq_params req with _ :: s :: _ => s | _ => [] end else [].
Definition static_harmless (req : request) : bool := existsb (seqb (rq_method req)) [B "connect"; B "get_public_key"; B "get_relays"; B "ping"].
(** static-key-signer.go:82-278 *)
Definition static_handle (st : static) (t : table) (e : event) (d : draws) : outcome (request * response * event) * table :=
  if negb (Z.eqb (ev_kind e) 24133) then (Err, t)
  else
    let '(os, t') := get_or_create (st_sk st) t (ev_pubkey e) in
    (obind os (fun s => obind (parse_request s (ev_content e)) (fun req => obind (static_answer st s req d) (fun a =>
       match a with
       | AUnknown => Err
       | AAnswer result err =>
         let refused := match st_auth st with Some f => negb err && negb (f (static_harmless req) (ev_pubkey e) (static_secret req)) | None => false end in
         obind (make_response s (rq_id req) (ev_pubkey e) result (err || refused) (d_now d) (d_reply d)) (fun re =>
         obind (sign_with c (st_sk st) (snd re)) (fun ev => Ok (req, fst re, ev)))
       end))), t').
Definition static_run (st : static) (h : list (event * draws)) : table := fold_left (fun t x => snd (static_handle st t (fst x) (snd x))) h (mkTable [] []).

(** dynamic-signer.go:17-29. The user's keyer as functions (any nostr.Keyer); get_relays gives the JSON of its map *)
Record ukeyer := mkUK { uk_pub : outcome str; uk_sign : event -> outcome event; uk_enc : str -> str -> outcome str; uk_dec : str -> str -> outcome str }.
Record dynamic := mkDyn {
  dy_secret : str -> outcome str; dy_user : str -> outcome ukeyer;
  dy_auth_sign : option (event -> str -> str -> bool); dy_auth_enc : option (str -> str -> bool); dy_relays : option (str -> str) }.
(** dynamic-signer.go:164-257, the switch; [secret] is only set in the case that does not use it *)
Definition dynamic_answer (dy : dynamic) (u : ukeyer) (s : session) (from : str) (req : request) : outcome answer :=
  let m := rq_method req in
  let secret := if seqb m (B "connect") then match rq_params req with _ :: x :: _ => x | _ => [] end else [] in
  let may := match dy_auth_enc dy with Some f => f from secret | None => true end in
  if seqb m (B "connect") then Ok (AAnswer (B "ack") false)
  else if seqb m (B "get_public_key") then Ok (AAnswer (ss_pub s) false)
  else if seqb m (B "sign_event") then one_arg req (fun j => obind (decode_event j) (fun e =>
    if match dy_auth_sign dy with Some f => f e from secret | None => true end then obind (uk_sign u e) (fun e' => Ok (encode_event e')) else Err))
  else if seqb m (B "get_relays") then match dy_relays dy with None => Panic (* a nil function is called *) | Some _ => Ok (AAnswer (B "{}") false) end
  else if seqb m (B "nip44_encrypt") then two_args req (fun third plain => if may then uk_enc u plain third else Err)
  else if seqb m (B "nip44_decrypt") then two_args req (fun third text => if may then uk_dec u text third else Err)
  else if seqb m (B "ping") then Ok (AAnswer (B "pong") false)
  else Ok AUnknown.
(** dynamic-signer.go:93-271 *)
Definition dynamic_handle (dy : dynamic) (t : table) (e : event) (d : draws) : outcome (request * response * event) * table :=
  if negb (Z.eqb (ev_kind e) 24133) then (Err, t)
  else match find_tag (ev_tags e) (B "p") with
  | None => (Err, t)
  | Some tg =>
    match nth_error tg 1 with
    | None => (Panic, t)
    | Some h =>
      if negb (valid_32byte_hex h) then (Err, t)
      else match obind (dy_secret dy h) (fun hs => obind (dy_user dy h) (fun u => Ok (hs, u))) with
      | Err => (Err, t) | Panic => (Panic, t)
      | Ok (hs, u) =>
        let '(os, t') :=
          match get_session t (ev_pubkey e) with
          | Ok (Some s) => (Ok s, t)
          | Ok None =>
            match obind (p_shared c (ev_pubkey e) hs) (fun sh => obind (p_conv c (ev_pubkey e) hs) (fun ck => obind (uk_pub u) (fun pk => Ok (mkSession pk sh ck)))) with
            | Ok s => (Ok s, set_session t (ev_pubkey e) s)
            | r => (r, t)
            end
          | Panic => (Panic, t)
          | Err => (Err, t)
          end in
        (obind os (fun s => obind (parse_request s (ev_content e)) (fun req => obind (dynamic_answer dy u s (ev_pubkey e) req) (fun a =>
           match a with
           | AUnknown => Err
           | AAnswer result err =>
             obind (make_response s (rq_id req) (ev_pubkey e) result err (d_now d) (d_reply d)) (fun re =>
             obind (sign_with c hs (snd re)) (fun ev => Ok (req, fst re, ev)))
           end))), t')
      end
    end
  end.
Definition dynamic_run (dy : dynamic) (h : list (event * draws)) : table := fold_left (fun t x => snd (dynamic_handle dy t (fst x) (snd x))) h (mkTable [] []).

(** keyer/bunker.go:47-54 over a transport [rpc] that delivers every request and its answer *)
Definition bunker_encrypt (rpc : str -> list str -> outcome str) (plain recipient : str) : outcome str := rpc (B "nip44_encrypt") [recipient; plain].
Definition bunker_decrypt (rpc : str -> list str -> outcome str) (payload sender : str) : outcome str := rpc (B "nip44_encrypt") [sender; payload].
(** nip46/client.go:243-288 over such a transport, with a static signer at the other end that allows everything: the result, or an error *)
Definition static_rpc (st : static) (s : session) (d : draws) (method : str) (params : list str) : outcome str :=
  obind (static_answer st s (mkReq (B "gn-1") method params) d) (fun a => match a with AAnswer r false => Ok r | _ => Err end).
(** nip46/client.go:160-182: SignEvent; the answer is read into the caller's event *)
Definition client_sign (rpc : str -> list str -> outcome str) (e : event) (skip_check : bool) : outcome event :=
  obind (rpc (B "sign_event") [encode_event e]) (fun j => obind (decode_event_into e j) (fun e' =>
    if skip_check then Ok e'
    else if negb (check_id (p_sha c) e') then Err
    else match sig_ok c e' with Ok true => Ok e' | Panic => Panic | _ => Err end)).
End Signer.
