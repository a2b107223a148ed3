(** Media servers: /repo/nipb0/blossom and /repo/nip96/nip96.go. *)
From Verif Require Import Base EventModel TagsModel Nip19Model CipherModel JLexModel.
Import ListNotations.

(** nipb0/blossom/client.go:19-29, strings.TrimSuffix(s, "/") takes one slash off *)
Definition drop_slash (s : str) : str := match rev s with x :: r => if ceqb x "/"%char then rev r else s | [] => s end.
Definition media_server (s : str) : str := drop_slash (if has_prefix s (B "http") then s else B "https://" ++ s) ++ B "/".

(** A request as it goes out: method, address, the Authorization header if one is set, the body if there is one. *)
Record http_request := mkHttp { hr_method : str; hr_url : str; hr_auth : option str; hr_body : option str }.
Section Client.
(** nostr.Signer.SignEvent *)
Variable sign_event : event -> option event.
(** nipb0/blossom/http.go:64-89. [now1], [now2]: the two readings of the clock. The JSON is that of Event.MarshalJSON; json.Marshal compacts it, which leaves it as it is. *)
Definition auth_event (now1 now2 : Z) (extra : list tag) : event :=
  mkEvent [] [] now1 24242 ([B "expiration"; dec_Z (now2 + 60)] :: extra) (B "blossom stuff") [].
Definition auth_header (now1 now2 : Z) (extra : list tag) : str :=
  match sign_event (auth_event now1 now2 extra) with
  | None => []
  | Some e => B "Nostr " ++ b64_encode (encode_event e)
  end.
(** nipb0/blossom/http.go:15-62: the request; an empty header is not added *)
Definition http_call (server method path : str) (auth : option str) (body : option str) : http_request :=
  mkHttp method (server ++ path) (match auth with Some [] => None | a => a end) body.
(** what the server answers: nothing, or a status and a body *)
Variable serve : http_request -> option (Z * str).
Definition answered (r : http_request) : outcome str := match serve r with Some (st, b) => if (300 <=? st)%Z then Err else Ok b | None => Err end.
(** nipb0/blossom/check.go:11-22 *)
Definition check_request (server hash : str) : http_request := http_call server (B "HEAD") hash None None.
Definition check (server hash : str) : outcome unit := if valid_32byte_hex hash then obind (answered (check_request server hash)) (fun _ => Ok tt) else Err.
(** nipb0/blossom/delete.go:11-23 *)
Definition delete_request (server : str) (now1 now2 : Z) (hash : str) : http_request :=
  http_call server (B "DELETE") hash (Some (auth_header now1 now2 [[B "t"; B "delete"]; [B "x"; hash]])) None.
Definition delete (server : str) (now1 now2 : Z) (hash : str) : outcome unit := obind (answered (delete_request server now1 now2 hash)) (fun _ => Ok tt).
(** nipb0/blossom/download.go:14-43. net/http adds the header even if it is empty. *)
Definition download_request (server : str) (now1 now2 : Z) (hash : str) : http_request :=
  mkHttp (B "GET") (server ++ B "/" ++ hash) (Some (auth_header now1 now2 [[B "t"; B "get"]; [B "x"; hash]])) None.
Definition download (server : str) (now1 now2 : Z) (hash : str) : outcome str :=
  if valid_32byte_hex hash then answered (download_request server now1 now2 hash) else Err.
(** nipb0/blossom/download.go:44-82. [old]: the file at that path before, if there is one; [opens]: whether it can be opened for writing; [got]: how much of the
    body arrives before the connection breaks, None when all of it does. The file afterwards, and whether the error is nil. *)
Definition download_to_file (server : str) (now1 now2 : Z) (hash : str) (old : option str) (opens : bool) (got : option nat) : option str * bool :=
  if valid_32byte_hex hash then
    match answered (download_request server now1 now2 hash) with
    | Ok b => if negb opens then (old, false) else match got with None => (Some b, true) | Some n => (Some (firstn n b), false) end
    | _ => (old, false)
    end
  else (old, false).
(** nipb0/blossom/upload.go:17-50. [f1]: the file when it was hashed; [f2]: when it is read again to be sent, of which at most as many bytes go as were hashed. The descriptor is decoded from the answer. *)
Variable sha256 : str -> str.
Definition upload_request (server : str) (now1 now2 : Z) (f1 f2 : str) : http_request :=
  http_call server (B "PUT") (B "upload") (Some (auth_header now1 now2 [[B "t"; B "upload"]; [B "x"; hex_encode (sha256 f1)]])) (Some (firstn (length f1) f2)).
Record descriptor := mkDesc { bd_url : str; bd_sha : str; bd_size : Z }.
Variable parse_desc : str -> option descriptor.
Definition upload (server : str) (now1 now2 : Z) (f1 f2 : str) : outcome descriptor :=
  obind (answered (upload_request server now1 now2 f1 f2)) (fun b => match parse_desc b with Some d => Ok d | None => Err end).
(** nipb0/blossom/list.go:11-28; [pubkey]: what the signer says *)
Variable parse_ok : str -> bool.
Definition list_request (server : str) (now1 now2 : Z) (pubkey : str) : http_request :=
  http_call server (B "GET") (B "list/" ++ pubkey) (Some (auth_header now1 now2 [[B "t"; B "list"]])) None.
Variable parse_descs : str -> option (list descriptor).
Definition list_blobs (server : str) (now1 now2 : Z) (pubkey : str) : outcome (list descriptor) :=
  if valid_pubkey parse_ok pubkey then obind (answered (list_request server now1 now2 pubkey)) (fun b => match parse_descs b with Some d => Ok d | None => Err end) else Err.
End Client.

(** ** nip96/nip96.go. The multipart body holds the file; [host] is the address. *)
Section Nip96.
Variable sha256 : str -> str.
Variable pub_compressed : str -> str.
Variable schnorr_sign : str -> str -> option str.
(** nip96.go:107-137. The error of event.Sign is dropped, and the event goes out as it is. *)
Definition nip96_event (pk host : str) (payload : option str) (now : Z) : event :=
  mkEvent [] pk now 27235 ([B "u"; host] :: [B "method"; B "POST"] :: match payload with Some p => [[B "payload"; p]] | None => [] end) [] [].
Definition nip96_auth (sk host : str) (payload : option str) (now : Z) : outcome str :=
  obind (get_public_key pub_compressed sk) (fun pk =>
  let e := nip96_event pk host payload now in
  let e1 := match sign sha256 pub_compressed schnorr_sign sk e with Ok s => s | _ => e end in
  Ok (B "Nostr " ++ b64_encode (encode_event e1))).
(** nip96.go:60-69 *)
Definition nip96_header (sk host : str) (sign_payload : bool) (file : str) (now : Z) : outcome (option str) :=
  match sk with
  | [] => Ok None
  | _ => obind (nip96_auth sk host (if sign_payload then Some (hex_encode (sha256 file)) else None) now) (fun h => Ok (Some h))
  end.
(** nip96.go:77-104: which answers give a result *)
Definition nip96_status (st : Z) : bool := ((st =? 200) || (st =? 201) || (st =? 202))%Z.
End Nip96.
