(** Lists, sets, loaders and helpers of /repo/sdk. *)
From Verif Require Import Base Machine EventModel TagsModel FilterModel Bech32Model Nip19Model StoreModel.
Import ListNotations.

(** ** sdk/replaceable_loader.go. The results map as a list of pairs, the newest binding first is not needed: [mset] replaces. *)
Definition repl_step (results : list (str * event)) (ie : event) : list (str * event) :=   (* replaceable_loader.go:134-137 *)
  match assoc (ev_pubkey ie) results with
  | Some v => if (ev_created_at v <? ev_created_at ie)%Z then mset (ev_pubkey ie) ie results else results
  | None => mset (ev_pubkey ie) ie results
  end.
(** What was received before the channel closed or the context ended. *)
Definition repl_load (received : list event) : list (str * event) := fold_left repl_step received [].

(** sdk/addressable_loader.go:302-326. *)
Fixpoint addr_insert (ie : event) (events : list event) : list event :=
  match events with
  | [] => [ie]
  | ev :: rest => if seqb (get_d (ev_tags ev)) (get_d (ev_tags ie)) then (if (ev_created_at ev <? ev_created_at ie)%Z then ie :: rest else ev :: rest)
                  else ev :: addr_insert ie rest
  end.
Definition addr_step (results : list (str * list event)) (ie : event) : list (str * list event) :=
  match assoc (ev_pubkey ie) results with
  | None | Some [] => mset (ev_pubkey ie) [ie] results
  | Some events => mset (ev_pubkey ie) (addr_insert ie events) results
  end.
Definition addr_load (received : list event) : list (str * list event) := fold_left addr_step received [].

(** The filters, one per relay (replaceable_loader.go:90-112, addressable_loader.go:68-90): relay and authors. One goroutine per key adds its
    relays under the lock, in any order; relayFilterIndex maps a relay to its position in relayFilter. *)
Fixpoint add_author (relay pk : str) (fs : list (str * list str)) : list (str * list str) :=
  match fs with
  | [] => [(relay, [pk])]
  | (r, authors) :: rest => if seqb r relay then (r, authors ++ [pk]) :: rest else (r, authors) :: add_author relay pk rest
  end.
Definition add_key (fs : list (str * list str)) (k : str * list str) : list (str * list str) := let '(pk, relays) := k in fold_left (fun fs r => add_author r pk fs) relays fs.
Definition relay_filters (keys : list (str * list str)) : list (str * list str) := fold_left add_key keys [].

(** determineRelaysToQuery, replaceable_loader.go:144-187: [relays] from hints or FetchOutboxRelays, [next] the relays the stream gives. *)
Fixpoint fill_relays (needed : nat) (next : list str) (relays : list str) : list str :=
  match needed, next with
  | S n, r :: rest => fill_relays n rest (if smem r relays then relays else relays ++ [r])
  | _, _ => relays
  end.
Definition determine_relays (relays next : list str) : list str := fill_relays (3 - length relays) next relays.

(** RelayStream.Next (system.go:77-80): the index is an int, serial++ wraps. Nil result: index out of range or division by zero. *)
Definition stream_next (urls : list str) (serial : Z) : outcome (str * Z) :=
  let serial' := if (serial =? 2 ^ 63 - 1)%Z then (- 2 ^ 63)%Z else (serial + 1)%Z in
  match urls with
  | [] => Panic
  | _ => let i := Z.rem serial' (Z.of_nat (length urls)) in
         if (i <? 0)%Z then Panic else match nth_error urls (Z.to_nat i) with Some u => Ok (u, serial') | None => Panic end
  end.
Fixpoint stream_run (n : nat) (urls : list str) (serial : Z) : outcome (list str) :=
  match n with O => Ok [] | S n' => obind (stream_next urls serial) (fun '(u, s) => obind (stream_run n' urls s) (fun l => Ok (u :: l))) end.

(** FetchOutboxRelays, outbox.go:21-47. [entry]: the cache slot of the key (256 slots by two of its hex digits): key, relays, time. *)
Definition fetch_outbox (pk : str) (n : nat) (now : Z) (entry : option (str * list str * Z)) (top6 : list str) : list str * option (str * list str * Z) :=
  let fresh := match top6 with
    | [] => ([B "wss://relay.damus.io"; B "wss://nos.lol"], entry)
    | _ => (firstn n top6, Some (pk, top6, now))
    end in
  match entry with
  | Some (p, relays, t) => if seqb p pk && (now <? t + 120)%Z then (relays, entry) else fresh
  | None => fresh
  end.

(** sdk/helpers.go:12-20. *)
Fixpoint append_unique_items (arr items : list str) : list str :=
  match items with [] => arr | x :: rest => if smem x arr then arr else append_unique_items (arr ++ [x]) rest end.

(** ** Lists and sets. *)
Section Items.
Context {I : Type} (value : I -> str) (parse : tag -> option I).
(** list.go:126-141, set.go:121-131 *)
Fixpoint parse_items (tags : list tag) (result : list I) : list I :=
  match tags with
  | [] => result
  | t :: rest => parse_items rest (match parse t with
      | Some item => if existsb (fun i => seqb (value i) (value item)) result then result else result ++ [item]
      | None => result end)
  end.
Definition items_of (e : event) : list I := parse_items (ev_tags e) [].
(** parseSetsFromEvents, set.go:115-134: later events overwrite. *)
Definition parse_sets (events : list event) : list (str * list I) := fold_left (fun m e => mset (get_d (ev_tags e)) (items_of e) m) events [].

(** list.go:143-152 *)
Definition refresh_days (kind : Z) : Z := if (kind =? 0)%Z then 7 else if (kind =? 3)%Z then 1 else 3.
(** decodeTimestamp of loader_helpers.go:27-30 on what the key-value store holds; PutUint32 in encodeTimestamp truncates. *)
Definition encode_ts (t : Z) : str := put_be32 t.
Definition decode_ts (b : str) : outcome Z := match b with a :: b' :: c :: d :: _ => be32 [a; b'; c; d] | _ => Panic end.

(** A list (list.go:14-19): event and items. *)
Definition glist : Type := option event * list I.
Definition list_of (e : event) : glist := (Some e, items_of e).
(** fetchGenericList, list.go:30-102. [cached]: cache.Get; [stored]: the events of the local store, in its order; [last]: what the key-value
    store holds for this kind and key; [net]: what the loader gives when asked. Result: the list, whether it is from inside, whether the network was
    asked, the time stored as last attempt (None: not stored). The lock by two hex digits only delays. *)
Record fetched (L : Type) := mkFetched { fd_list : L; fd_internal : bool; fd_asked : bool; fd_attempt : option str }.
Definition stale (kind now : Z) (last : option str) : outcome bool :=
  match last with
  | None => Ok true
  | Some b => obind (decode_ts b) (fun t => Ok (now - t >? refresh_days kind * 24 * 60 * 60)%Z)
  end.
Definition fetch_list (kind now : Z) (cached : option glist) (stored : list event) (last : option str) (net : option event) : outcome (fetched glist) :=
  match cached with
  | Some v => Ok (mkFetched _ v true false None)
  | None =>
    match stored with
    | e :: _ =>
        obind (stale kind now last) (fun due =>
          if due then
            let v := match net with Some n => if (ev_created_at n >? ev_created_at e)%Z then list_of n else list_of e | None => list_of e end in
            Ok (mkFetched _ v true true (Some (encode_ts now)))
          else Ok (mkFetched _ (list_of e) true false None))
    | [] =>
        match net with
        | Some n => Ok (mkFetched _ (list_of n) false true (Some (encode_ts now)))
        | None => Ok (mkFetched _ (None, []) false true None)
        end
    end
  end.
(** fetchGenericSets, set.go:22-91. *)
Definition gsets : Type := list event * list (str * list I).
Definition sets_of (es : list event) : gsets := (es, parse_sets es).
Definition fetch_sets (kind now : Z) (cached : option gsets) (stored : list event) (last : option str) (net : option (list event)) : outcome (fetched gsets) :=
  match cached with
  | Some v => Ok (mkFetched _ v true false None)
  | None =>
    match stored with
    | _ :: _ =>
        obind (stale kind now last) (fun due =>
          if due then
            match net with Some n => Ok (mkFetched _ (sets_of n) true true (Some (encode_ts now))) | None => Panic end   (* v = *newV with newV nil *)
          else Ok (mkFetched _ (sets_of stored) true false None))
    | [] =>
        match net with
        | Some n => Ok (mkFetched _ (sets_of n) false true (Some (encode_ts now)))
        | None => Ok (mkFetched _ ([], []) false true None)
        end
    end
  end.
End Items.
Arguments fd_list {L}. Arguments fd_internal {L}. Arguments fd_asked {L}. Arguments fd_attempt {L}. Arguments mkFetched {L}.

(** ** The items. Parameters: schnorr.ParsePubKey, url.Parse, IsValidRelayURL, NormalizeURL, strings.TrimSpace. *)
Section ItemParsers.
Variable parse_ok : str -> bool.
Variables (url_ok relay_ok : str -> bool) (normalize trim : str -> str).
Record profile_ref := mkPRef { pr_pubkey : str; pr_relay : str; pr_petname : str }.
(** lists_profile.go:47-71 *)
Definition parse_profile_ref (t : tag) : option profile_ref :=
  match t with
  | k :: pk :: rest =>
      if negb (seqb k (B "p")) then None else if negb (valid_pubkey parse_ok pk) then None else
      Some (match rest with
        | [] => mkPRef pk [] []
        | r :: rest' => mkPRef pk (if url_ok r then normalize r else []) (match rest' with [] => [] | n :: _ => trim n end)
        end)
  | _ => None
  end.
Record relay_item := mkRelayItem { ri_url : str; ri_inbox : bool; ri_outbox : bool }.
(** lists_relay.go:54-78 *)
Definition parse_relay_10002 (t : tag) : option relay_item :=
  match t with
  | k :: u :: rest =>
      if negb (seqb u []) && seqb k (B "r") then
        if negb (relay_ok u) then None else
        Some (match rest with
          | [] => mkRelayItem (normalize u) true true
          | m :: _ => if seqb m (B "write") then mkRelayItem (normalize u) false true else if seqb m (B "read") then mkRelayItem (normalize u) true false else mkRelayItem (normalize u) false false
          end)
      else None
  | _ => None
  end.
(** lists_relay.go:80-90 *)
Definition parse_relay_url (t : tag) : option str :=
  match t with
  | k :: u :: _ => if negb (seqb u []) && seqb k (B "relay") then if negb (relay_ok u) then None else Some (normalize u) else None
  | _ => None
  end.
(** lists_topics.go:32-37 *)
Definition parse_topic (t : tag) : option str :=
  match t with k :: u :: _ => if negb (seqb u []) && seqb k (B "t") then Some u else None | _ => None end.
(** lists_event.go:34-76: (evr, ok) as written; the switch only looks at the tag to fill in evr, the last return says false. *)
Definition parse_event_ref (t : tag) : pointer * bool :=
  let zero := PEvent (mkEventPtr [] None [] 0) in
  match t with
  | k :: v :: rest =>
      if seqb k (B "e") then
        if negb (valid_32byte_hex v) then (zero, false) else
        (PEvent (mkEventPtr v (match rest with r :: _ => Some [normalize r] | [] => None end) (match rest with _ :: a :: _ => a | _ => [] end) 0), false)
      else if seqb k (B "a") then
        match split3 v with
        | None => (zero, false)
        | Some (kd, pk, id) =>
            if negb (valid_pubkey parse_ok pk) then (zero, false) else
            match parse_int kd with
            | None => (zero, false)
            | Some kind => (PEntity (mkEntity pk kind id (match rest with r :: _ => Some [normalize r] | [] => None end)), false)
            end
        end
      else (zero, false)
  | _ => (zero, false)
  end.
Definition event_ref_item (t : tag) : option pointer := let '(p, ok) := parse_event_ref t in if ok then Some p else None.
Definition event_ref_value (p : pointer) : str := match p with PProfile v => pp_pubkey v | PEvent v => ep_id v | PEntity v => entity_ref v end.   (* AsTagReference *)

(** FetchInboxRelays and FetchWriteRelays on the fetched list, outbox.go:51-83. *)
Definition inbox_relays (l : list relay_item) : list str :=
  if Nat.eqb (length l) 0 || Nat.ltb 10 (length l) then [B "wss://relay.damus.io"; B "wss://nos.lol"] else map ri_url (filter ri_inbox l).
Definition write_relays (l : list relay_item) : list str := map ri_url (filter ri_outbox l).
End ItemParsers.

(** ** sdk/cache/memory: the hash that stands for the key (cache.go:20, 32-48). Ristretto looks a value up by the two hashes alone; the second is 0. *)
Definition short_uint64 (k : str) : Z :=
  if Nat.ltb (length k) 8 then 0%Z else
  match hex_decode (skipn (length k - 8) k) with
  | None => 0%Z
  | Some b => match be32 b with Ok z => z | _ => 0%Z end
  end.
(** Entries may be dropped at any time (eviction, expiry); what is there is the last value set under the hash. *)
Definition cache_set {V} (k : str) (v : V) (m : list (Z * V)) : list (Z * V) := (short_uint64 k, v) :: filter (fun e => negb (fst e =? short_uint64 k)%Z) m.
Definition cache_get {V} (k : str) (m : list (Z * V)) : option V := option_map snd (find (fun e => (fst e =? short_uint64 k)%Z) m).
Definition cache_del {V} (k : str) (m : list (Z * V)) : list (Z * V) := filter (fun e => negb (fst e =? short_uint64 k)%Z) m.

(** ** sdk/feeds.go: FetchFeedPage for one author (feeds.go:115-172). [oldest_data]: the key-value store's record; [local]: the store's answer to
    the filter; [relay_events until]: what the relays send for that until. Result: the events added, the until sent to relays if they were asked, and the record
    written. [limit] = limitPerKey. Errors of the store and an empty relay list are left out. *)
Definition feed_page {E} (at_time : E -> Z) (now until : Z) (limit : nat) (oldest_data : option Z) (local : Z -> list E) (relay_events : Z -> list E) : list E * option Z * option Z :=
  let oldest0 := match oldest_data with Some 0%Z => now | Some t => t | None => 0%Z end in
  let res := local until in
  if (until >? oldest0)%Z && Nat.leb limit (length res) then (res, None, None)
  else
    let got := relay_events (oldest0 + 1)%Z in
    let oldest := fold_left (fun o e => if (at_time e <? o)%Z then at_time e else o) got oldest0 in
    (filter (fun e => at_time e <? until)%Z got, Some (oldest0 + 1)%Z, Some oldest).

(** ** sdk/note.go:11-43: tags added for the references in the content, in order. *)
Definition pointer_tag (p : pointer) : tag := match p with PProfile v => profile_as_tag v | PEvent v => event_ptr_as_tag v | PEntity v => entity_as_tag v end.
Definition note_step (tags : list tag) (p : pointer) : list tag :=
  let present := match p with
    | PProfile v => find_with_value tags (B "b") (pp_pubkey v)
    | PEvent v => find_with_value tags (B "q") (ep_id v)
    | PEntity v => find_with_value tags (B "q") (entity_ref v)
    end in
  match present with None => tags ++ [pointer_tag p] | Some _ => tags end.
Definition prepare_note (refs : list pointer) (tags : list tag) : list tag := fold_left note_step refs tags.

(** ** sdk/input.go. What nip19.Decode returns as prefix and data even when it also returns an error (nip19.go:13-132): None for the data is nil or not a
    value of the type that belongs to the prefix. *)
Definition raw_decode (s : str) : outcome (str * option code) :=
  match decode s with
  | Ok (prefix, bits5) =>
    match convert_bits bits5 5 8 false with
    | Ok nums =>
      let data := bytes_of nums in
      if seqb prefix (B "npub") || seqb prefix (B "nsec") || seqb prefix (B "note") then Ok (prefix, if Nat.eqb (length data) 32 then Some (KHex (hex_encode data)) else None)
      else if seqb prefix (B "nprofile") then
        match tlv_loop (length data) profile_entry data (mkProfile [] None) with Ok p => Ok (prefix, Some (KPtr (PProfile p))) | Err => Ok (prefix, None) | Panic => Panic end
      else if seqb prefix (B "nevent") then
        match tlv_loop (length data) event_entry data (mkEventPtr [] None [] 0) with Ok p => Ok (prefix, Some (KPtr (PEvent p))) | Err => Ok (prefix, None) | Panic => Panic end
      else if seqb prefix (B "naddr") then
        match tlv_loop (length data) entity_entry data (mkEntity [] 0 [] None) with Ok p => Ok (prefix, Some (KPtr (PEntity p))) | Err => Ok (prefix, None) | Panic => Panic end
      else Ok (prefix, None)
    | Err => Ok (prefix, None)
    | Panic => Panic
    end
  | Err => Ok ([], None)
  | Panic => Panic
  end.
(** InputToProfile, input.go:13-39. [nip05]: QueryIdentifier. *)
Definition input_to_profile (nip05 : str -> option profile_pointer) (input : str) : outcome (option profile_pointer) :=
  if Nat.eqb (length input) 64 && match hex_decode input with Some _ => true | None => false end then Ok (Some (mkProfile input None)) else
  obind (raw_decode input) (fun '(prefix, data) =>
    if seqb prefix (B "npub") then match data with Some (KHex h) => Ok (Some (mkProfile h None)) | _ => Panic end   (* data.(string) *)
    else if seqb prefix (B "nprofile") then match data with Some (KPtr (PProfile p)) => Ok (Some p) | _ => Panic end
    else Ok (nip05 input)).
(** InputToEventPointer, input.go:41-65. *)
Definition input_to_event (input : str) : outcome (option event_pointer) :=
  if Nat.eqb (length input) 64 && match hex_decode input with Some _ => true | None => false end then Ok (Some (mkEventPtr input None [] 0)) else
  obind (raw_decode input) (fun '(prefix, data) =>
    if seqb prefix (B "note") then match data with Some (KHex h) => Ok (Some (mkEventPtr h None [] 0)) | _ => Ok None end
    else if seqb prefix (B "nevent") then match data with Some (KPtr (PEvent p)) => Ok (Some p) | _ => Ok None end
    else Ok None).
