(** The live feed: /repo/sdk/feeds.go:14-94, with the parts of /repo/relay.go:236-290, /repo/subscription.go:117-127 and /repo/pool.go:414-530 that decide which
    events reach it. *)
From Verif Require Import Base Machine FilterModel EventModel Nip19Model StoreModel ListsModel.
Import ListNotations.
Local Open Scope Z_scope.

(** makePubkeyStreamKey, sdk/feeds.go:19-24: hex.Decode of the first 16 digits into 8 zeroed bytes; the slice panics for shorter texts *)
Definition stream_key (prefix : ascii) (pk : str) : outcome str :=
  if Nat.ltb (length pk) 16 then Panic else let d := hex_prefix (firstn 16 pk) in Ok (prefix :: d ++ repeat (byte_of 0) (8 - length d)).

(** An event of the author and of the kinds asked for: all that counts of it is its id and time. *)
Record fev := mkFe { fe_id : str; fe_at : Z }.
(** What the goroutine of one author holds. [au_had]: the filter has a since, which is a pointer to [au_latest] (feeds.go:58-61). [au_req]: relays asked, with
    the since in the request. [au_eosed]: relays that sent EOSE. [au_ids]: ids marked as seen. [au_queue]: events past the filter, waiting for the goroutine.
    [au_seen]: events taken by the goroutine, oldest first. [au_dropped]: events that did not match the filter. [au_pending]: waiting in [events <- evt]. *)
Record author := mkAu { au_pk : str; au_had : bool; au_first : Z; au_latest : Z; au_oldest : Z; au_serial : nat; au_req : list (nat * option Z); au_eosed : list nat;
  au_ids : list str; au_queue : list fev; au_seen : list fev; au_dropped : list fev; au_pending : option fev; au_done : bool }.
Record feed := mkFeed { fd_todo : list str; fd_authors : list author; fd_active : Z; fd_closed : nat; fd_kv : list (str * str); fd_stored : list fev; fd_out : list (nat * fev); fd_panic : bool }.
Inductive faction :=
| FNext (relays : bool)                      (* the loop takes the next key; whether it has relays *)
| FReq (i r : nat)                           (* the request of author i goes to relay r *)
| FArrive (i r : nat) (e : fev)              (* relay r sends an event *)
| FEose (i r : nat)
| FHandle (i k : nat)                        (* the goroutine of author i takes the k-th waiting event: dispatchEvent starts a goroutine per event *)
| FTake (i : nat)                            (* the consumer takes the event that i is sending *)
| FDone (i : nat).                           (* the subscription's channel was closed: the context was canceled *)

(** feeds.go:71-86 *)
Definition handle (kl ko : str) (e : fev) (a : author) (kv : list (str * str)) : author * list (str * str) :=
  let '(mkAu pk had fi la ol se rq eo ids q sn dr pe dn) := a in
  if la <? fe_at e then
    let se := S se in
    (mkAu pk had fi (fe_at e) ol se rq eo ids q (sn ++ [e]) dr (Some e) dn, if Nat.eqb (Nat.modulo se 10) 0 then mset kl (encode_ts (fe_at e)) kv else kv)
  else if fe_at e <? ol then (mkAu pk had fi la (fe_at e) se rq eo ids q (sn ++ [e]) dr (Some e) dn, mset ko (encode_ts (fe_at e)) kv)
  else (mkAu pk had fi la ol se rq eo ids q (sn ++ [e]) dr (Some e) dn, kv).
Definition set_queue (a : author) (q : list fev) : author := mkAu (au_pk a) (au_had a) (au_first a) (au_latest a) (au_oldest a) (au_serial a) (au_req a) (au_eosed a) (au_ids a) q (au_seen a) (au_dropped a) (au_pending a) (au_done a).
Fixpoint remove_nth {A} (k : nat) (l : list A) : list A := match l, k with [], _ => [] | _ :: r, O => r | x :: r, S k => x :: remove_nth k r end.
Definition nmem (x : nat) (l : list nat) : bool := existsb (Nat.eqb x) l.
Definition asked (r : nat) (a : author) : bool := existsb (fun p : nat * option Z => Nat.eqb (fst p) r) (au_req a).
(** one less active; the last closes the channel, which panics if it is closed already *)
Definition finish (s : feed) (todo : list str) (authors : list author) : feed :=
  let act := fd_active s - 1 in
  if act =? 0 then mkFeed todo authors act (S (fd_closed s)) (fd_kv s) (fd_stored s) (fd_out s) (fd_panic s || Nat.ltb 0 (fd_closed s))
  else mkFeed todo authors act (fd_closed s) (fd_kv s) (fd_stored s) (fd_out s) (fd_panic s).
Definition crash (s : feed) : feed := mkFeed (fd_todo s) (fd_authors s) (fd_active s) (fd_closed s) (fd_kv s) (fd_stored s) (fd_out s) true.

Definition feed_step (x : faction) (s : feed) : option feed :=
  let on i (f : author -> option feed) := if fd_panic s then None else match nth_error (fd_authors s) i with Some a => if au_done a then None else f a | None => None end in
  let put i a := mkFeed (fd_todo s) (upd (fd_authors s) i a) (fd_active s) (fd_closed s) (fd_kv s) (fd_stored s) (fd_out s) (fd_panic s) in
  match x with
  | FNext relays =>                                                        (* feeds.go:41-67 *)
    if fd_panic s then None else
    match fd_todo s with
    | [] => None
    | pk :: todo =>
      if negb relays then Some (finish s todo (fd_authors s))
      else match stream_key "L"%char pk with
      | Ok key =>
        let start had t := Some (mkFeed todo (fd_authors s ++ [mkAu pk had t t 0 0 [] [] [] [] [] [] None false]) (fd_active s) (fd_closed s) (fd_kv s) (fd_stored s) (fd_out s) (fd_panic s)) in
        match assoc key (fd_kv s) with
        | None => start false 0
        | Some data => match decode_ts data with Ok t => start true t | _ => Some (crash s) end
        end
      | _ => Some (crash s)
      end
    end
  | FReq i r => on i (fun a => if asked r a then None else
      Some (put i (mkAu (au_pk a) (au_had a) (au_first a) (au_latest a) (au_oldest a) (au_serial a) (au_req a ++ [(r, if au_had a then Some (au_latest a) else None)]) (au_eosed a) (au_ids a) (au_queue a) (au_seen a) (au_dropped a) (au_pending a) (au_done a))))
  | FArrive i r e => on i (fun a => if negb (asked r a) then None else
      if smem (fe_id e) (au_ids a) then Some s                             (* relay.go:236-251: checked before the filter, and marked *)
      else
        let ids := fe_id e :: au_ids a in
        if nmem r (au_eosed a) || negb (au_had a) || (au_latest a <=? fe_at e)   (* relay.go:280; subscription.go:121-122 *)
        then Some (put i (mkAu (au_pk a) (au_had a) (au_first a) (au_latest a) (au_oldest a) (au_serial a) (au_req a) (au_eosed a) ids (au_queue a ++ [e]) (au_seen a) (au_dropped a) (au_pending a) (au_done a)))
        else Some (put i (mkAu (au_pk a) (au_had a) (au_first a) (au_latest a) (au_oldest a) (au_serial a) (au_req a) (au_eosed a) ids (au_queue a) (au_seen a) (au_dropped a ++ [e]) (au_pending a) (au_done a))))
  | FEose i r => on i (fun a => if asked r a then
      Some (put i (mkAu (au_pk a) (au_had a) (au_first a) (au_latest a) (au_oldest a) (au_serial a) (au_req a) (r :: au_eosed a) (au_ids a) (au_queue a) (au_seen a) (au_dropped a) (au_pending a) (au_done a))) else None)
  | FHandle i k => on i (fun a =>
      match au_pending a, nth_error (au_queue a) k, stream_key "L"%char (au_pk a), stream_key "O"%char (au_pk a) with
      | None, Some e, Ok kl, Ok ko =>
        let '(a', kv) := handle kl ko e (set_queue a (remove_nth k (au_queue a))) (fd_kv s) in
        Some (mkFeed (fd_todo s) (upd (fd_authors s) i a') (fd_active s) (fd_closed s) kv (fd_stored s ++ [e]) (fd_out s) (fd_panic s))
      | _, _, _, _ => None
      end)
  | FTake i => on i (fun a =>
      match au_pending a with
      | Some e =>
        if Nat.ltb 0 (fd_closed s) then Some (crash s)                     (* send on a closed channel *)
        else Some (mkFeed (fd_todo s) (upd (fd_authors s) i (mkAu (au_pk a) (au_had a) (au_first a) (au_latest a) (au_oldest a) (au_serial a) (au_req a) (au_eosed a) (au_ids a) (au_queue a) (au_seen a) (au_dropped a) None (au_done a)))
                          (fd_active s) (fd_closed s) (fd_kv s) (fd_stored s) (fd_out s ++ [(i, e)]) (fd_panic s))
      | None => None
      end)
  | FDone i => on i (fun a =>
      match au_pending a with
      | None => Some (finish s (fd_todo s) (upd (fd_authors s) i (mkAu (au_pk a) (au_had a) (au_first a) (au_latest a) (au_oldest a) (au_serial a) (au_req a) (au_eosed a) (au_ids a) (au_queue a) (au_seen a) (au_dropped a) None true)))
      | Some _ => None
      end)
  end.
(** feeds.go:35-38. Simplifications: ids are not forgotten (pool.go:523-531 drops old ones after EOSE); a relay that is lost is not asked again. *)
Definition feed_init (pks : list str) (kv : list (str * str)) : feed := mkFeed pks [] (Z.of_nat (length pks)) 0 kv [] [] false.
