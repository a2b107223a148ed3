(** Connecting to a remote signer: ConnectBunker, NewBunker and RPC of /repo/nip46/client.go, IsValidBunkerURL of nip46.go, wellknownnostrjson.go.
    Urls are read by the net/url of HttpUrlModel.v, so a user name in the authority ("bunker://user@key") and brackets are outside the model.
    The calls that wait for answers at the same time are in RpcModel.v; here is what one call publishes and what the reader makes of one event. *)
From Verif Require Import Base EventModel CryptoModel Nip19Model IdentModel HttpUrlModel SignerModel.
Import ListNotations.
Local Open Scope bool_scope.

(** net/url: Values, the map as a list of its entries; m[key] and Values.Get *)
Fixpoint values_at (k : str) (m : list (str * list str)) : list str := match m with [] => [] | (k', vs) :: r => if seqb k k' then vs else values_at k r end.
Definition first_or_empty (l : list str) : str := match l with v :: _ => v | [] => [] end.
(** strings.Contains *)
Fixpoint contains (s x : str) : bool := has_prefix s x || match s with [] => false | _ :: r => contains r x end.

Section Address.
Variable parse_ok : str -> bool.                          (* schnorr.ParsePubKey succeeds *)
Variable server : str -> option well_known_response.     (* as in IdentModel *)
(** nip46.go:41-56 *)
Definition is_valid_bunker_url (input : str) : bool :=
  match url_parse input with
  | None => false
  | Some p => seqb (hu_scheme p) (B "bunker") && valid_pubkey parse_ok (hu_host p) && contains (hu_query p) (B "relay=")
  end.
(** wellknownnostrjson.go:10-26. The [ok] of line 21 is that of line 16, so it is true; a missing list is nil *)
Definition query_well_known (fullname : str) : outcome (str * list str) :=
  obind (fetch server fullname) (fun rn =>
  match wk_names (fst rn) (snd rn) with
  | None => Err
  | Some pubkey => Ok (pubkey, match wk_nip46 (fst rn) pubkey with Some l => l | None => [] end)
  end).
(** client.go:46-71: the target, the relays and the secret *)
Definition connect_args (input : str) : outcome (str * list str * str) :=
  match url_parse input with
  | None => Err
  | Some p =>
      let secret := first_or_empty (values_at (B "secret") (query_values (hu_query p))) in
      let relays := values_at (B "relay") (query_values (hu_query p)) in
      obind (if negb (nonempty (hu_scheme p)) then query_well_known input
             else if seqb (hu_scheme p) (B "bunker") then Ok (hu_host p, relays) else Err)
        (fun tr => if valid_pubkey parse_ok (fst tr) then Ok (fst tr, snd tr, secret) else Err)
  end.
End Address.

Section Client.
Variable c : prims.
Variable enc_req : request -> str.
Variable dec_resp : str -> option response.
(** client.go:18-34: the fields that do not change; [bc_pub] and [bc_shared] are variables of NewBunker that its goroutine keeps *)
Record bclient := mkBC { bc_sk : str; bc_pub : str; bc_target : str; bc_relays : list str; bc_conv : str; bc_shared : str }.
(** The errors of lines 98-100 are dropped: the functions then give "", nil and 32 zero bytes *)
Definition or_else (zero : str) (o : outcome str) : outcome str := match o with Err => Ok zero | r => r end.
Definition zero_key : str := repeat (byte_of 0) 32.
(** client.go:86-112, without the goroutine *)
Definition new_bunker (sk target : str) (relays : list str) : outcome bclient :=
  obind (or_else [] (public_key c sk)) (fun pk =>
  obind (or_else [] (p_shared c target sk)) (fun shared =>
  obind (or_else zero_key (p_conv c target sk)) (fun conv => Ok (mkBC sk pk target relays conv shared)))).
(** client.go:233-257: the event that is published *)
Definition rpc_event (b : bclient) (id method : str) (params : list str) (now : Z) (nonce : str) : outcome event :=
  obind (encrypt44 c (enc_req (mkReq id method params)) (bc_conv b) nonce) (fun content =>
  sign_with c (bc_sk b) (mkEvent [] [] now 24133 [[B "p"; bc_target b]] content [])).
(** client.go:122-140: what the reader makes of an event; None: it goes on to the next *)
Definition client_read (b : bclient) (e : event) : outcome (option response) :=
  if negb (Z.eqb (ev_kind e) 24133) then Ok None else
  match (match decrypt44 c (ev_content e) (bc_conv b) with Err => decrypt04 c (ev_content e) (bc_shared b) | r => r end) with
  | Ok plain => Ok (dec_resp plain)
  | Err => Ok None
  | Panic => Panic
  end.
(** client.go:39-84: the client and the request that it publishes. The request has the first id *)
Definition connect_event (parse_ok : str -> bool) (server : str -> option well_known_response) (sk input id : str) (now : Z) (nonce : str) : outcome (bclient * event) :=
  obind (connect_args parse_ok server input) (fun a => let '(target, relays, secret) := a in
  obind (new_bunker sk target relays) (fun b =>
  obind (rpc_event b id (B "connect") [target; secret] now nonce) (fun e => Ok (b, e)))).
End Client.
