(** Fetching one event by its code: /repo/sdk/specific_event.go. *)
From Verif Require Import Base FilterModel EventModel Nip19Model StoreModel TrackModel ListsModel.
Import ListNotations.

Definition empty_filter : nfilter := mkFilter None None None [] None None 0 [] false.
Definition relays_of (o : option (list str)) : list str := match o with Some l => l | None => [] end.
(** specific_event.go:71-93: author, filter, relays, fallback, priority relays. [just_id]: the URLs of JustIDRelays; [next]: the values that
    FallbackRelays.Next() gives, one after the other. *)
Record plan := mkPlan { pl_author : str; pl_filter : nfilter; pl_relays : list str; pl_fallback : list str; pl_priority : list str }.
Definition plan_of (p : pointer) (just_id : list str) (next : nat -> str) : plan :=
  match p with
  | PEvent v => mkPlan (ep_author v) (mkFilter (Some [ep_id v]) None None [] None None 0 [] false)
      (append_unique_items (relays_of (ep_relays v)) [next 0]) (append_unique_items just_id [next 1]) (relays_of (ep_relays v))
  | PEntity v => mkPlan (en_pubkey v) (mkFilter None (Some [en_kind v]) (Some [en_pubkey v]) [(B "d", Some [en_identifier v])] None None 0 [] false)
      (append_unique_items (relays_of (en_relays v)) [next 0]) [next 1; next 2] (relays_of (en_relays v))
  | PProfile _ => mkPlan [] empty_filter [] [] []
  end.
(** specific_event.go:134-167: the events of one attempt as they come, with the relay of each. [slow]: wait for all of them. The result
    so far, the relays that had it, and whether to stop here. The profile of the author, fetched on the side, is left out. *)
Fixpoint attempt (slow : bool) (ies : list (event * str)) (result : option event) (success : list str) : option event * list str * bool :=
  match ies with
  | [] => (result, success, false)
  | (e, u) :: r =>
      let success := success ++ [u] in
      let result := match result with None => Some e | Some x => if (ev_created_at e >? ev_created_at x)%Z then Some e else result end in
      if negb slow then (result, success, true) else attempt slow r result success
  end.
(** specific_event.go:180-190: the comparison of the sort *)
Definition by_priority (priority : list str) (a b : str) : Z :=
  let vpa := smem a priority in let vpb := smem b priority in
  if Bool.eqb vpa vpb then 1%Z else if vpa && negb vpb then 1%Z else (-1)%Z.

Section Fetch.
Variable normalize : str -> str.
Variable outbox : str -> list str.                               (* FetchOutboxRelays(author, 3), see C83 *)
Variable stored : nfilter -> list event.                         (* the local store *)
Variable many : nat -> list str -> nfilter -> list (event * str). (* Pool.FetchMany in the first and the second attempt *)
Variable sort : (str -> str -> Z) -> list str -> list str.       (* slices.SortFunc *)

(** FetchSpecificEvent, specific_event.go:60-193: the event, the relays, what was asked of which relays, the hints saved, the events put
    into the local store. Its author must have 14 characters for FetchOutboxRelays (outbox.go:22). *)
Record found := mkFound { fo_event : option event; fo_relays : list str; fo_asked : list (list str); fo_hints : list hsave; fo_published : list event }.
Definition fetch_specific (p : pointer) (with_relays skip_local : bool) (just_id : list str) (next : nat -> str) (now : Z) : outcome found :=
  let pl := plan_of p just_id next in
  match (if skip_local then [] else stored (pl_filter pl)) with
  | e :: _ => Ok (mkFound (Some e) [] [] [] [])
  | [] =>
      obind (match pl_author pl with
             | [] => Ok (pl_relays pl, pl_priority pl, [])
             | author => if Nat.ltb (length author) 14 then Panic else
                 let ar := outbox author in
                 Ok (append_unique_items (pl_relays pl) ar, append_unique_items (pl_priority pl) ar, map (fun r => (author, normalize r, LastInHint, now)) (pl_priority pl))
             end) (fun '(relays, priority, hs) =>
      let '(r1, s1, stop) := attempt with_relays (many 0 relays (pl_filter pl)) None [] in
      let '(r2, s2, asked) := if stop then (r1, s1, [relays]) else
        let '(r2, s2, _) := attempt false (many 1 (pl_fallback pl) (pl_filter pl)) r1 s1 in (r2, s2, [relays; pl_fallback pl]) in
      match r2 with
      | None => Err
      | Some e => Ok (mkFound (Some e) (sort (by_priority priority) s2) asked hs (if skip_local then [] else [e]))
      end)
  end.
(** FetchSpecificEventFromInput, specific_event.go:28-54: which pointer. *)
Definition input_pointer (input : str) : outcome pointer :=
  match nip19_decode input with
  | Panic => Panic
  | Ok (prefix, KPtr p) => if seqb prefix (B "nevent") || seqb prefix (B "naddr") then Ok p else Err
  | Ok (prefix, KHex h) => if seqb prefix (B "note") then Ok (PEvent (mkEventPtr h None [] 0)) else Err
  | Err => if valid_32byte_hex input then Ok (PEvent (mkEventPtr input None [] 0)) else Err
  end.
End Fetch.
