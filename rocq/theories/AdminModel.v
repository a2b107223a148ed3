(** Relay management requests, /repo/nip86/methods.go and types.go. *)
From Verif Require Import Base EventModel TagsModel Nip19Model.
Import ListNotations.

(** A param, a value of type any. JSON gives strings, numbers (float64: a whole number or not) and others (bool, nil, []any, map); only a program can put a []string there. *)
Inductive param := PStr (s : str) | PWhole (z : Z) | PFraction | PThing | PStrings (l : list str).
Record request := mkRequest { rq_method : str; rq_params : list param }.
(** methods.go:178-332: the types of MethodParams *)
Inductive mparams :=
| SupportedMethods | BanPubKey (pk reason : str) | ListBannedPubKeys | AllowPubKey (pk reason : str) | ListAllowedPubKeys | ListEventsNeedingModeration
| AllowEvent (id reason : str) | BanEvent (id reason : str) | ListBannedEvents | ChangeRelayName (s : str) | ChangeRelayDescription (s : str) | ChangeRelayIcon (s : str)
| AllowKind (k : Z) | DisallowKind (k : Z) | ListAllowedKinds | BlockIP (ip : str) (reason : str) | UnblockIP (ip : str) (reason : str) | ListBlockedIPs
| ListAllowedEvents | ListDisallowedKinds | GrantAdmin (pk : str) (ms : list str) | RevokeAdmin (pk : str) (ms : list str) | Stats.
(** the MethodName methods of methods.go:208-332 *)
Definition method_name (m : mparams) : str :=
  match m with
  | SupportedMethods => B "supportedmethods" | BanPubKey _ _ => B "banpubkey" | ListBannedPubKeys => B "listbannedpubkeys" | AllowPubKey _ _ => B "allowpubkey"
  | ListAllowedPubKeys => B "listallowedpubkeys" | ListEventsNeedingModeration => B "listeventsneedingmoderation" | AllowEvent _ _ => B "allowevent" | BanEvent _ _ => B "banevent"
  | ListBannedEvents => B "listbannedevents" | ChangeRelayName _ => B "changerelayname" | ChangeRelayDescription _ => B "changerelaydescription" | ChangeRelayIcon _ => B "changerelayicon"
  | AllowKind _ => B "allowkind" | DisallowKind _ => B "disallowkind" | ListAllowedKinds => B "listallowedkinds" | BlockIP _ _ => B "blockip" | UnblockIP _ _ => B "unblockip"
  | ListBlockedIPs => B "listblockedips" | ListAllowedEvents => B "listallowedevents" | ListDisallowedKinds => B "listdisallowedkinds"
  | GrantAdmin _ _ => B "grantadmin" | RevokeAdmin _ _ => B "revokeadmin" | Stats => B "stats"
  end.
(** x, _ := p.(string) *)
Definition str_or (p : param) : str := match p with PStr s => s | _ => [] end.
(** methods.go:23-26 and the like *)
Definition reason_of (ps : list param) : str := match ps with _ :: p :: _ => str_or p | _ => [] end.
Section Decode.
Variable parse_ok : str -> bool.
Variable parse_ip : str -> option str.   (* net.ParseIP, the address as text *)
Variable to_int : Z -> Z.                (* int(f) of a whole float64; outside of 64 bits Go leaves the value open *)
(** methods.go:15-27, 30-42 *)
Definition with_pubkey (ps : list param) (k : str -> str -> mparams) : outcome mparams :=
  match ps with
  | [] => Err
  | PStr pk :: _ => if valid_pubkey parse_ok pk then Ok (k pk (reason_of ps)) else Err
  | _ => Err
  end.
(** methods.go:47-59, 60-72 *)
Definition with_id (ps : list param) (k : str -> str -> mparams) : outcome mparams :=
  match ps with
  | [] => Err
  | PStr id :: _ => if valid_32byte_hex id then Ok (k id (reason_of ps)) else Err
  | _ => Err
  end.
(** methods.go:79-96 *)
Definition with_text (ps : list param) (k : str -> mparams) : outcome mparams := match ps with [] => Err | p :: _ => Ok (k (str_or p)) end.
(** methods.go:97-114 *)
Definition with_kind (ps : list param) (k : Z -> mparams) : outcome mparams := match ps with PWhole z :: _ => Ok (k (to_int z)) | _ => Err end.
(** methods.go:117-130, 131-144 *)
Definition with_ip (ps : list param) (k : str -> str -> mparams) : outcome mparams :=
  match ps with [] => Err | p :: _ => match parse_ip (str_or p) with Some ip => Ok (k ip (reason_of ps)) | None => Err end end.
(** methods.go:147-158, 159-170: type assertions without a second result *)
Definition with_admin (ps : list param) (k : str -> list str -> mparams) : outcome mparams :=
  match ps with
  | PStr pk :: PStrings ms :: _ => Ok (k pk ms)
  | _ :: _ :: _ => Panic
  | _ => Err
  end.
(** methods.go:11-176 *)
Definition decode_request (r : request) : outcome mparams :=
  let m := rq_method r in let ps := rq_params r in
  if seqb m (B "supportedmethods") then Ok SupportedMethods else
  if seqb m (B "banpubkey") then with_pubkey ps BanPubKey else
  if seqb m (B "listbannedpubkeys") then Ok ListBannedPubKeys else
  if seqb m (B "allowpubkey") then with_pubkey ps AllowPubKey else
  if seqb m (B "listallowedpubkeys") then Ok ListAllowedPubKeys else
  if seqb m (B "listeventsneedingmoderation") then Ok ListEventsNeedingModeration else
  if seqb m (B "allowevent") then with_id ps AllowEvent else
  if seqb m (B "banevent") then with_id ps BanEvent else
  if seqb m (B "listbannedevents") then Ok ListBannedEvents else
  if seqb m (B "listallowedevents") then Ok ListAllowedEvents else
  if seqb m (B "listdisallowedkinds") then Ok ListDisallowedKinds else
  if seqb m (B "changerelayname") then with_text ps ChangeRelayName else
  if seqb m (B "changerelaydescription") then with_text ps ChangeRelayDescription else
  if seqb m (B "changerelayicon") then with_text ps ChangeRelayIcon else
  if seqb m (B "allowkind") then with_kind ps AllowKind else
  if seqb m (B "disallowkind") then with_kind ps DisallowKind else
  if seqb m (B "listallowedkinds") then Ok ListAllowedKinds else
  if seqb m (B "blockip") then with_ip ps BlockIP else
  if seqb m (B "unblockip") then with_ip ps UnblockIP else
  if seqb m (B "listblockedips") then Ok ListBlockedIPs else
  if seqb m (B "grantadmin") then with_admin ps GrantAdmin else
  if seqb m (B "revokeadmin") then with_admin ps RevokeAdmin else
  if seqb m (B "stats") then Ok Stats else Err.
End Decode.
