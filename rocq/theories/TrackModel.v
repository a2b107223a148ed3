(** What an event teaches about relays: /repo/sdk/tracker.go and IsVirtualRelay of /repo/sdk/utils.go. *)
From Verif Require Import Base FilterModel EventModel Nip19Model StoreModel BlocksModel.
Import ListNotations.

(** IsVirtualRelay, sdk/utils.go:10-29. [testing]: testing.Testing(). && binds closer than ||. *)
Definition is_virtual (testing : bool) (url : str) : bool :=
  if Nat.ltb (length url) 6 then true
  else if has_prefix url (B "wss://feeds.nostr.band") || has_prefix url (B "wss://filter.nostr.wine") || has_prefix url (B "wss://cache") then true
  else if (negb testing && has_prefix url (B "ws://localhost")) || has_prefix url (B "ws://127.0.0.1") then true
  else false.

(** sdk/hints/keys.go:9-14 *)
Definition LastFetchAttempt : nat := 0.
Definition MostRecentEventFetched : nat := 1.
Definition LastInRelayList : nat := 2.
Definition LastInHint : nat := 3.
(** One call of Hints.Save: author, relay, kind of hint, time. *)
Definition hsave := (str * str * nat * Z)%type.

(** TrackQueryAttempts, tracker.go:11-23; [now]: nostr.Now(). *)
Definition track_attempt (testing : bool) (relay author : str) (kind now : Z) : list hsave :=
  if is_virtual testing relay then []
  else if (kind <? 30000)%Z && (kind >=? 20000)%Z then []
  else if (kind =? 0)%Z || (kind =? 10002)%Z || (kind =? 3)%Z then []
  else [(author, relay, LastFetchAttempt, now)].

Section Track.
Variable parse_ok : str -> bool.              (* schnorr.ParsePubKey, inside nostr.IsValidPublicKey *)
Variable url_host : str -> option str.        (* url.Parse, its Host, inside nip27.Parse *)
Variable scheme : str -> option str.          (* url.Parse, its Scheme; None: an error *)
Variable normalize : str -> str.              (* nostr.NormalizeURL, see AuthModel.v *)
Variable testing : bool.

(** tracker.go:83-88, the same at 102-107, 118-123, 128-133, 138-143 *)
Definition good_hint (relay : str) : bool :=
  if is_virtual testing relay then false
  else match scheme relay with Some s => seqb s (B "wss") || seqb s (B "ws") | None => false end.
(** tracker.go:69-76: one tag of a relay list *)
Definition list_tag (e : event) (t : tag) : list hsave :=
  match t with
  | k :: url :: rest =>
      if negb (seqb k (B "r")) then []
      else if match rest with [] => true | m :: _ => seqb m [] || seqb m (B "write") end
      then [(ev_pubkey e, normalize url, LastInRelayList, ev_created_at e)] else []
  | _ => []
  end.
(** tracker.go:79-92, the same at 98-111: one tag of any other event *)
Definition hint_tag (e : event) (t : tag) : list hsave :=
  match t with
  | k :: pk :: url :: _ =>
      if negb (good_hint url) then []
      else if seqb k (B "p") && valid_pubkey parse_ok pk then [(pk, normalize url, LastInHint, ev_created_at e)] else []
  | _ => []
  end.
(** tracker.go:113-145: one block of the text *)
Definition hints_of (e : event) (author : str) (relays : option (list str)) : list hsave :=
  flat_map (fun r => if good_hint r then [(author, normalize r, LastInHint, ev_created_at e)] else []) (match relays with Some l => l | None => [] end).
Definition hint_block (e : event) (b : block) : list hsave :=
  match b_pointer b with
  | Some (BPtr (PProfile p)) => hints_of e (pp_pubkey p) (pp_relays p)
  | Some (BPtr (PEvent p)) => hints_of e (ep_author p) (ep_relays p)
  | Some (BPtr (PEntity p)) => hints_of e (en_pubkey p) (en_relays p)
  | _ => []
  end.
(** trackEventHints, tracker.go:57-147: the saves it makes, in order. When the text crashes nip27.Parse, those made before are not modelled. *)
Definition track_hints (relay : str) (e : event) : outcome (list hsave) :=
  if (ev_kind e =? 0)%Z then Ok []
  else if (ev_kind e =? 10002)%Z then
    if Nat.ltb 12 (length (ev_tags e)) then Ok [] else Ok (flat_map (list_tag e) (ev_tags e))
  else if (ev_kind e =? 3)%Z then Ok (flat_map (hint_tag e) (ev_tags e))
  else obind (parse_blocks url_host (ev_content e)) (fun bs =>
    Ok ((ev_pubkey e, relay, MostRecentEventFetched, ev_created_at e) :: flat_map (hint_tag e) (ev_tags e) ++ flat_map (hint_block e) bs)).

(** TrackEventHintsAndRelays and TrackEventHints, tracker.go:27-55: the saves, and the event whose relay is recorded ([trackEventRelay]). *)
Definition skipped (relay : str) (e : event) : bool := is_virtual testing relay || ((ev_kind e <? 30000)%Z && (ev_kind e >=? 20000)%Z).
Definition track_event_hints (relay : str) (e : event) : outcome (list hsave) := if skipped relay e then Ok [] else track_hints relay e.
Definition track_event (relay : str) (e : event) : outcome (list hsave * list (str * str * bool)) :=
  if skipped relay e then Ok ([], [])
  else obind (track_hints relay e) (fun hs =>
    Ok (hs, if negb (ev_kind e =? 0)%Z && negb (ev_kind e =? 10002)%Z then [(ev_id e, relay, false)] else [])).
(** TrackEventRelaysD, tracker.go:150-155 *)
Definition track_duplicate (relay id : str) : list (str * str * bool) := if is_virtual testing relay then [] else [(id, relay, true)].

(** A program that gives these three to a pool as its middlewares: what it sees, in order, with the clock at each. The saves and the
    calls of trackEventRelay that result. *)
Definition stamp (now : Z) (h : hsave) : saved_op := let '(a, u, k, t) := h in (now, a, u, k, t).
Inductive sighting := SeenEvent (now : Z) (relay : str) (e : event) | SeenAgain (relay id : str) | Asked (now : Z) (relay author : str) (kind : Z).
Fixpoint track_all (l : list sighting) : outcome (list saved_op * list (str * str * bool)) :=
  match l with
  | [] => Ok ([], [])
  | x :: r =>
      obind (match x with
             | SeenEvent now relay e => obind (track_event relay e) (fun '(hs, rs) => Ok (map (stamp now) hs, rs))
             | SeenAgain relay id => Ok ([], track_duplicate relay id)
             | Asked now relay author kind => Ok (map (stamp now) (track_attempt testing relay author kind now), [])
             end) (fun '(hs, rs) =>
      obind (track_all r) (fun '(hs', rs') => Ok (hs ++ hs', rs ++ rs')))
  end.
End Track.
