(** A System of /repo/sdk: how NewSystem puts it together and Close takes it apart, and its eleven lists and sets as they are fetched by
    several goroutines at once. *)
From Verif Require Import Base Machine EventModel TagsModel FilterModel Nip19Model StoreModel ListsModel ProfileModel.
Import ListNotations.

(** ** NewSystem, system.go:89-149. Things made elsewhere and given by the caller are numbers. *)
Inductive kvref := KVMemory | KVGiven (n : nat).                      (* kvstore_memory.NewStore(), or the caller's *)
Inductive cacheref := CacheMemory (size : Z) | CacheGiven (n : nat).  (* cache_memory.New32(size), or the caller's *)
Inductive storeref := NullStore | StoreGiven (n : nat).
Inductive hintsref := HintsMemory | HintsGiven (n : nat).
(** The relay streams by name. *)
Inductive stream := SRelayList | SFollowList | SMetadata | SFallback | SJustID | SUserSearch | SNoteSearch.
Definition stream_eqb (a b : stream) : bool :=
  match a, b with SRelayList, SRelayList | SFollowList, SFollowList | SMetadata, SMetadata | SFallback, SFallback | SJustID, SJustID | SUserSearch, SUserSearch | SNoteSearch, SNoteSearch => true | _, _ => false end.
Record system := mkSys {
  sy_kv : option kvref;                       (* None: nil *)
  sy_metadata_cache : option cacheref;
  sy_relay_cache : option cacheref;
  sy_follow_cache : option cacheref;
  sy_hints : option hintsref;
  sy_urls : stream -> list str;
  sy_store : option storeref;
  sy_pool_open : bool;
  sy_kv_closed : list kvref;                  (* the stores Close was called on, in order *)
  sy_store_inited : list storeref             (* the stores Init was called on *)
}.
(** The eight other caches start as nil and the fetchers of part two make them, 1000 entries each. *)

(** With..., system.go:162-253. *)
Inductive modifier :=
| WithHintsDB (h : option nat)                (* :162-166 *)
| WithRelays (s : stream) (urls : list str)   (* the seven of :169-215 *)
| WithStore (s : option nat)                  (* :218-222 *)
| WithRelayListCache (c : option nat)         (* :225-229 *)
| WithFollowListCache (c : option nat)        (* :232-236 *)
| WithMetadataCache (c : option nat)          (* :239-243 *)
| WithKVStore (k : option nat).               (* :246-253 *)
Definition purple : list str := [B "wss://purplepag.es"; B "wss://user.kindpag.es"; B "wss://relay.nos.social"].
Definition default_urls (s : stream) : list str :=   (* system.go:92-119 *)
  match s with
  | SRelayList | SFollowList | SMetadata => purple
  | SFallback => [B "wss://offchain.pub"; B "wss://no.str.cr"; B "wss://relay.damus.io"; B "wss://nostr.mom"; B "wss://nos.lol"; B "wss://relay.mostr.pub"; B "wss://nostr.land"]
  | SJustID => [B "wss://cache2.primal.net/v1"; B "wss://relay.nostr.band"]
  | SUserSearch => [B "wss://search.nos.today"; B "wss://nostr.wine"; B "wss://relay.nostr.band"]
  | SNoteSearch => [B "wss://nostr.wine"; B "wss://relay.nostr.band"; B "wss://search.nos.today"]
  end.
(** The literal of :90-121 and the pool of :123-128. *)
Definition bare_system : system := mkSys (Some KVMemory) None None None (Some HintsMemory) default_urls None true [] [].
Definition apply_mod (y : system) (m : modifier) : system :=
  match m with
  | WithHintsDB h => mkSys (sy_kv y) (sy_metadata_cache y) (sy_relay_cache y) (sy_follow_cache y) (option_map HintsGiven h) (sy_urls y) (sy_store y) (sy_pool_open y) (sy_kv_closed y) (sy_store_inited y)
  | WithRelays s urls => mkSys (sy_kv y) (sy_metadata_cache y) (sy_relay_cache y) (sy_follow_cache y) (sy_hints y) (fun t => if stream_eqb t s then urls else sy_urls y t) (sy_store y) (sy_pool_open y) (sy_kv_closed y) (sy_store_inited y)
  | WithStore s => mkSys (sy_kv y) (sy_metadata_cache y) (sy_relay_cache y) (sy_follow_cache y) (sy_hints y) (sy_urls y) (option_map StoreGiven s) (sy_pool_open y) (sy_kv_closed y) (sy_store_inited y)
  | WithRelayListCache c => mkSys (sy_kv y) (sy_metadata_cache y) (option_map CacheGiven c) (sy_follow_cache y) (sy_hints y) (sy_urls y) (sy_store y) (sy_pool_open y) (sy_kv_closed y) (sy_store_inited y)
  | WithFollowListCache c => mkSys (sy_kv y) (sy_metadata_cache y) (sy_relay_cache y) (option_map CacheGiven c) (sy_hints y) (sy_urls y) (sy_store y) (sy_pool_open y) (sy_kv_closed y) (sy_store_inited y)
  | WithMetadataCache c => mkSys (sy_kv y) (option_map CacheGiven c) (sy_relay_cache y) (sy_follow_cache y) (sy_hints y) (sy_urls y) (sy_store y) (sy_pool_open y) (sy_kv_closed y) (sy_store_inited y)
  | WithKVStore k => mkSys (option_map KVGiven k) (sy_metadata_cache y) (sy_relay_cache y) (sy_follow_cache y) (sy_hints y) (sy_urls y) (sy_store y) (sy_pool_open y)
                       (sy_kv_closed y ++ match sy_kv y with Some o => [o] | None => [] end) (sy_store_inited y)
  end.
(** :134-143. The loaders of :145-146 are below. *)
Definition finish_system (y : system) : system :=
  let or_new c := match c with None => Some (CacheMemory 8000) | Some _ => c end in
  let '(store, inited) := match sy_store y with None => (Some NullStore, sy_store_inited y ++ [NullStore]) | Some _ => (sy_store y, sy_store_inited y) end in
  mkSys (sy_kv y) (or_new (sy_metadata_cache y)) (or_new (sy_relay_cache y)) (sy_follow_cache y) (sy_hints y) (sy_urls y) store (sy_pool_open y) (sy_kv_closed y) inited.
Definition new_system (mods : list modifier) : system := finish_system (fold_left apply_mod mods bare_system).
(** Close, :152-159. *)
Definition close_system (y : system) : system :=
  mkSys (sy_kv y) (sy_metadata_cache y) (sy_relay_cache y) (sy_follow_cache y) (sy_hints y) (sy_urls y) (sy_store y) false
    (sy_kv_closed y ++ match sy_kv y with Some o => [o] | None => [] end) (sy_store_inited y).

(** ** The loaders: at each index the kind they load. replaceable_loader.go:16-29 and 33-47, addressable_loader.go:16-30. *)
Definition replaceable_loaders : list Z := [0; 3; 10000; 10001; 10002; 10003; 10004; 10005; 10006; 10007; 10015; 10030]%Z.
Definition addressable_loaders : list Z := [30000; 30002; 30015; 30030]%Z.

(** ** The fetchers. *)
Inductive fetcher := FFollowList | FMuteList | FPinList | FRelayList | FBookmarkList | FBlockedRelayList | FSearchRelayList | FTopicList   (* lists *)
| FFollowSets | FRelaySets | FTopicSets.                                                                                                    (* sets *)
(** The cache fields of a System, system.go:32-42. *)
Inductive slot := RelayListCache | FollowListCache | MuteListCache | BookmarkListCache | PinListCache | BlockedRelayListCache | SearchRelayListCache | TopicListCache | RelaySetsCache | FollowSetsCache | TopicSetsCache.
Definition slot_num (s : slot) : nat :=
  match s with RelayListCache => 0 | FollowListCache => 1 | MuteListCache => 2 | BookmarkListCache => 3 | PinListCache => 4 | BlockedRelayListCache => 5 | SearchRelayListCache => 6 | TopicListCache => 7 | RelaySetsCache => 8 | FollowSetsCache => 9 | TopicSetsCache => 10 end.
Definition slot_eqb (a b : slot) : bool := Nat.eqb (slot_num a) (slot_num b).
(** The things lists are made of. *)
Inductive item := IProfile (p : profile_ref) | IRelay (r : relay_item) | IUrl (u : str) | ITopic (t : str) | IEvent (p : pointer).
Definition item_value (i : item) : str := match i with IProfile p => pr_pubkey p | IRelay r => ri_url r | IUrl u => u | ITopic t => t | IEvent p => event_ref_value p end.
(** GenericList and GenericSets with their PubKey, list.go:14-19, set.go:15-20. *)
Inductive entry := EList (pk : str) (e : option event) (items : list item) | ESets (pk : str) (es : list event) (sets : list (str * list item)).

Section System.
Variable parse_ok : str -> bool.
Variables (url_ok relay_ok : str -> bool) (normalize trim : str -> str).
Definition parse_profile_item (t : tag) : option item := option_map IProfile (parse_profile_ref parse_ok url_ok normalize trim t).
Definition parse_relay_item (t : tag) : option item := option_map IRelay (parse_relay_10002 relay_ok normalize t).
Definition parse_url_item (t : tag) : option item := option_map IUrl (parse_relay_url relay_ok normalize t).
Definition parse_topic_item (t : tag) : option item := option_map ITopic (parse_topic t).
Definition parse_event_item (t : tag) : option item := option_map IEvent (event_ref_item parse_ok normalize t).
(** The arguments of fetchGenericList and fetchGenericSets: kind, index of the loader, parser, cache. *)
Definition fetcher_args (f : fetcher) : Z * nat * (tag -> option item) * slot :=
  match f with
  | FFollowList => (3%Z, 1, parse_profile_item, FollowListCache)                   (* lists_profile.go:25 *)
  | FMuteList => (10000%Z, 2, parse_profile_item, MuteListCache)                   (* lists_profile.go:34 *)
  | FPinList => (10001%Z, 3, parse_event_item, PinListCache)                       (* lists_event.go:30 *)
  | FRelayList => (10002%Z, 4, parse_relay_item, RelayListCache)                   (* lists_relay.go:23 *)
  | FBookmarkList => (10003%Z, 5, parse_event_item, BookmarkListCache)             (* lists_event.go:21 *)
  | FBlockedRelayList => (10006%Z, 8, parse_url_item, BlockedRelayListCache)       (* lists_relay.go:32 *)
  | FSearchRelayList => (10007%Z, 9, parse_url_item, SearchRelayListCache)         (* lists_relay.go:41 *)
  | FTopicList => (10015%Z, 10, parse_topic_item, TopicListCache)                  (* lists_topics.go:19 *)
  | FFollowSets => (30000%Z, 0, parse_profile_item, FollowSetsCache)               (* lists_profile.go:43 *)
  | FRelaySets => (30002%Z, 1, parse_url_item, RelaySetsCache)                     (* lists_relay.go:50 *)
  | FTopicSets => (30015%Z, 2, parse_topic_item, TopicSetsCache)                   (* lists_topics.go:28 *)
  end.
Definition is_sets (f : fetcher) : bool := match f with FFollowSets | FRelaySets | FTopicSets => true | _ => false end.
Definition f_kind (f : fetcher) : Z := fst (fst (fst (fetcher_args f))).
Definition f_parse (f : fetcher) : tag -> option item := snd (fst (fetcher_args f)).
Definition f_slot (f : fetcher) : slot := snd (fetcher_args f).
(** The kind the loader asks the relays for; an index beyond the loaders is a panic there, 0 here: no fetcher has one. *)
Definition f_loader_kind (f : fetcher) : Z := nth (snd (fst (fst (fetcher_args f)))) (if is_sets f then addressable_loaders else replaceable_loaders) 0%Z.
(** The list or the sets made of events, list.go:60-62 and 121-125, set.go:55-57 and 106-110. *)
Definition entry_of (f : fetcher) (pk : str) (e : event) (rest : list event) : entry :=
  if is_sets f then ESets pk (e :: rest) (parse_sets item_value (f_parse f) (e :: rest)) else EList pk (Some e) (items_of item_value (f_parse f) e).
Definition empty_entry (f : fetcher) (pk : str) : entry := if is_sets f then ESets pk [] [] else EList pk None [].

(** ** fetchGenericList (list.go:30-102) and fetchGenericSets (set.go:22-91), with several goroutines. A call looks into the cache, the local
    store and the record of the last attempt in one step, and in a second one gets the network's answer (if it needs it), puts it into the
    local store, writes the record and the cache and returns. The lock around the sleep of list.go:43-54 is released before the cache is read, so it
    orders nothing and is left out; the sleep only delays. A fetch of a relay list made by the loader of another list (outbox.go:29) is a call of
    its own. *)
Inductive cphase :=
| PNet (stored : list event)                     (* in tryFetch...FromNetwork *)
| PKeep (v : entry)                              (* on its way to the cache with what was found locally *)
| PDone (v : entry) (internal asked : bool)
| PPanic.
Record call := mkCall { c_f : fetcher; c_pk : str; c_phase : cphase }.
Record lsys := mkLS { ls_caches : slot -> list (Z * entry); ls_kv : list (str * str); ls_calls : list call; ls_published : list event }.
Definition ls_init (kv : list (str * str)) : lsys := mkLS (fun _ => []) kv [] [].
Inductive laction :=
| LStart (f : fetcher) (pk : str) (now : Z) (stored : list event)                                   (* [stored]: what the local store answers *)
| LEnd (i : nat) (now : Z) (answer : Z -> str -> option (event * list event))                       (* the loader's answer by kind and key; None: an error *)
| LForget (s : slot) (h : Z).                                                                       (* the cache drops an entry *)
Definition l_set (s : slot) (pk : str) (v : entry) (c : slot -> list (Z * entry)) : slot -> list (Z * entry) := fun t => if slot_eqb t s then cache_set pk v (c t) else c t.
(** list.go:39-66, 73: the first half. *)
Definition start_phase (f : fetcher) (pk : str) (now : Z) (stored : list event) (s : lsys) : cphase :=
  if Nat.ltb (length pk) 16 then PPanic else                                                        (* pubkey[14:16] *)
  match cache_get pk (ls_caches s (f_slot f)) with
  | Some v => PDone v true false
  | None =>
    match stored with
    | [] => PNet []
    | e :: rest =>
        match last_fetch_key (f_kind f) pk with
        | Ok key => match stale (f_kind f) now (assoc key (ls_kv s)) with Ok true => PNet stored | Ok false => PKeep (entry_of f pk e rest) | _ => PPanic end
        | _ => PPanic
        end
    end
  end.
(** list.go:67-102, set.go:63-91: what is returned, the record written if any, what is published. *)
Definition end_net (f : fetcher) (pk : str) (stored : list event) (net : option (event * list event)) : option (entry * bool * bool) :=   (* value, internal, is a record written *)
  match stored, net with
  | [], None => Some (empty_entry f pk, false, false)
  | [], Some (n, ns) => Some (entry_of f pk n ns, false, true)
  | e :: rest, None => if is_sets f then None else Some (entry_of f pk e rest, true, true)
  | e :: rest, Some (n, ns) => Some (if is_sets f || (ev_created_at n >? ev_created_at e)%Z then entry_of f pk n ns else entry_of f pk e rest, true, true)
  end.
Definition lstep (a : laction) (s : lsys) : option lsys :=
  match a with
  | LStart f pk now stored => Some (mkLS (ls_caches s) (ls_kv s) (ls_calls s ++ [mkCall f pk (start_phase f pk now stored s)]) (ls_published s))
  | LEnd i now answer =>
      match nth_error (ls_calls s) i with
      | Some (mkCall f pk (PKeep v)) => Some (mkLS (l_set (f_slot f) pk v (ls_caches s)) (ls_kv s) (upd (ls_calls s) i (mkCall f pk (PDone v true false))) (ls_published s))
      | Some (mkCall f pk (PNet stored)) =>
          let net := answer (f_loader_kind f) pk in
          let pub := match net with None => [] | Some (n, ns) => n :: (if is_sets f then ns else []) end in
          match end_net f pk stored net, last_fetch_key (f_kind f) pk with
          | None, _ => Some (mkLS (ls_caches s) (ls_kv s) (upd (ls_calls s) i (mkCall f pk PPanic)) (ls_published s))
          | Some (v, internal, true), Ok key => Some (mkLS (l_set (f_slot f) pk v (ls_caches s)) (mset key (encode_ts now) (ls_kv s)) (upd (ls_calls s) i (mkCall f pk (PDone v internal true))) (ls_published s ++ pub))
          | Some (v, internal, true), _ => Some (mkLS (ls_caches s) (ls_kv s) (upd (ls_calls s) i (mkCall f pk PPanic)) (ls_published s ++ pub))
          | Some (v, internal, false), _ => Some (mkLS (l_set (f_slot f) pk v (ls_caches s)) (ls_kv s) (upd (ls_calls s) i (mkCall f pk (PDone v internal true))) (ls_published s ++ pub))
          end
      | _ => None
      end
  | LForget t h => Some (mkLS (fun u => if slot_eqb u t then filter (fun e => negb (fst e =? h)%Z) (ls_caches s u) else ls_caches s u) (ls_kv s) (ls_calls s) (ls_published s))
  end.
End System.
