(** Profiles: /repo/sdk/metadata.go. *)
From Verif Require Import Base FilterModel EventModel Nip19Model StoreModel TrackModel ListsModel.
Import ListNotations.

(** ProfileMetadata, metadata.go:15-32. The zero time.Time is None; times in whole seconds. *)
Record fields := mkFields { fl_name : str; fl_display : str; fl_about : str; fl_website : str; fl_picture : str; fl_banner : str; fl_nip05 : str; fl_lud16 : str }.
Definition no_fields : fields := mkFields [] [] [] [] [] [] [] [].
Record profile := mkPM { pm_pubkey : str; pm_event : option event; pm_fields : fields; pm_nip05_valid : bool; pm_nip05_last : option Z }.
Definition with_pubkey (pk : str) (p : profile) : profile := mkPM pk (pm_event p) (pm_fields p) (pm_nip05_valid p) (pm_nip05_last p).
Definition with_event (e : event) (p : profile) : profile := mkPM (pm_pubkey p) (Some e) (pm_fields p) (pm_nip05_valid p) (pm_nip05_last p).

(** Npub and NpubShort, metadata.go:35-45; the error of the encoder is dropped and its text is then empty. *)
Definition ellipsis : str := [byte_of 226; byte_of 128; byte_of 166].
Definition npub (pk : str) : outcome str := match encode_public_key pk with Ok s => Ok s | Err => Ok [] | Panic => Panic end.
Definition npub_short (pk : str) : outcome str :=
  obind (npub pk) (fun s => if Nat.ltb (length s) 7 then Panic else if Nat.ltb (length s) 58 then Panic else Ok (firstn 7 s ++ ellipsis ++ skipn 58 s)).
(** ShortName, metadata.go:56-64 *)
Definition short_name (p : profile) : outcome str :=
  match fl_name (pm_fields p) with [] => match fl_display (pm_fields p) with [] => npub_short (pm_pubkey p) | d => Ok d end | n => Ok n end.

(** NIP05Valid, metadata.go:67-85. [query]: nip05.QueryIdentifier, the public key it finds, None for an error. now.AddDate(0, 0, -7) is
    taken as seven times 86400 seconds before. The answer, whether the identifier was queried, and the profile afterwards. *)
Definition nip05_valid (now : Z) (query : str -> option str) (p : profile) : bool * bool * profile :=
  match fl_nip05 (pm_fields p) with
  | [] => (false, false, p)
  | id =>
      if match pm_nip05_last p with None => true | Some t => (t <? now - 7 * 86400)%Z end then
        let v := match query id with None => false | Some pk => seqb pk (pm_pubkey p) end in
        (v, true, mkPM (pm_pubkey p) (pm_event p) (pm_fields p) v (Some now))
      else (pm_nip05_valid p, false, p)
  end.

(** Calls of NIP05Valid on one profile: the answers, and which of them queried. *)
Fixpoint nip05_calls (calls : list (Z * (str -> option str))) (p : profile) : list (bool * bool) :=
  match calls with [] => [] | (now, q) :: r => let '(v, a, p) := nip05_valid now q p in (v, a) :: nip05_calls r p end.

Section Fetch.
(** json.Unmarshal into an empty ProfileMetadata: what it leaves there, and whether it succeeded. *)
Variable unmarshal : str -> fields * bool.

(** ParseMetadata, metadata.go:176-191; the value and whether the error is nil *)
Definition parse_metadata (e : event) : profile * bool :=
  let '(f, ok) := if (ev_kind e =? 0)%Z then unmarshal (ev_content e) else (no_fields, false) in
  (mkPM (ev_pubkey e) (Some e) f false None, ok).

(** The state of a System that matters here: the cache of profiles (cache_get and cache_set of ListsModel.v) and the key-value store. *)
Record pstate := mkPS { ps_cache : list (Z * profile); ps_kv : list (str * str) }.
(** makeLastFetchKey, loader_helpers.go:12-18: 38 bytes; hex.Decode into the last 33 of them, panics beyond. *)
Definition last_fetch_key (kind : Z) (pk : str) : outcome str :=
  let d := hex_prefix pk in
  if Nat.ltb 33 (length d) then Panic else Ok (B "f" ++ le32 kind ++ d ++ repeat (byte_of 0) (33 - length d)).
(** tryFetchMetadataFromNetwork, metadata.go:156-172. [net]: what the loader gives, None for its error. The result, the events put into
    the local store, and the cache. *)
Definition try_network (pk : str) (net : option event) (c : list (Z * profile)) : option profile * list event * list (Z * profile) :=
  match net with
  | None => (None, [], c)
  | Some e => let '(pm, ok) := parse_metadata e in
      if ok then let pm := with_event e (with_pubkey pk pm) in (Some pm, [e], cache_set pk pm c) else (None, [], c)
  end.
(** FetchProfileMetadata, metadata.go:108-154. [stored]: what the local store gives for kind 0 and the author. The clock is read once. *)
Record fetched_profile := mkFP { fp_profile : profile; fp_asked : bool; fp_published : list event }.
Definition fetch_profile (now : Z) (pk : str) (stored : list event) (net : option event) (s : pstate) : outcome (fetched_profile * pstate) :=
  match cache_get pk (ps_cache s) with
  | Some v => Ok (mkFP v false [], s)
  | None =>
    match stored with
    | e :: _ =>
        let pm := with_event e (with_pubkey pk (fst (parse_metadata e))) in
        obind (last_fetch_key 0 pk) (fun key =>
        obind (stale 0 now (assoc key (ps_kv s))) (fun due =>
          if due then
            let '(newm, pub, c) := try_network pk net (ps_cache s) in
            let pm := match newm, net with Some m, Some n => if (ev_created_at n >? ev_created_at e)%Z then m else pm | _, _ => pm end in
            Ok (mkFP pm true pub, mkPS (cache_set pk pm c) (mset key (encode_ts now) (ps_kv s)))
          else Ok (mkFP pm false [], mkPS (cache_set pk pm (ps_cache s)) (ps_kv s))))
    | [] =>
        let '(newm, pub, c) := try_network pk net (ps_cache s) in
        match newm with
        | Some m => obind (last_fetch_key 0 pk) (fun key => Ok (mkFP m true pub, mkPS (cache_set pk m c) (mset key (encode_ts now) (ps_kv s))))
        | None => let pm := mkPM pk None no_fields false None in Ok (mkFP pm true pub, mkPS (cache_set pk pm c) (ps_kv s))
        end
    end
  end.
(** A program: profiles are fetched, one at a time, and the cache forgets what it likes. *)
Inductive pop := PFetch (now : Z) (pk : str) (stored : list event) (net : option event) | PForget (h : Z).
Fixpoint profiles (ops : list pop) (s : pstate) : outcome (list (option fetched_profile) * pstate) :=
  match ops with
  | [] => Ok ([], s)
  | PForget h :: r => obind (profiles r (mkPS (filter (fun e => negb (fst e =? h)%Z) (ps_cache s)) (ps_kv s))) (fun '(l, s) => Ok (None :: l, s))
  | PFetch now pk stored net :: r => obind (fetch_profile now pk stored net s) (fun '(p, s) => obind (profiles r s) (fun '(l, s) => Ok (Some p :: l, s)))
  end.
(** FetchProfileFromInput, metadata.go:90-105: the hints it saves and the key whose profile it then fetches. [nip05]: QueryIdentifier. *)
Definition profile_from_input (normalize : str -> str) (testing : bool) (nip05 : str -> option profile_pointer) (now : Z) (input : str) : outcome (list hsave * str) :=
  obind (input_to_profile nip05 input) (fun r =>
    match r with
    | None => Err
    | Some p => Ok (flat_map (fun u => if is_virtual testing u then [] else [(pp_pubkey p, normalize u, LastInHint, now)]) (match pp_relays p with Some l => l | None => [] end), pp_pubkey p)
    end).
End Fetch.
