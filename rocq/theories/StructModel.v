(** Values kept in tags: repositories (/repo/nip34), file metadata (/repo/nip94), live events (/repo/nip53), calendar events (/repo/nip52). *)
From Verif Require Import Base EventModel TagsModel Nip19Model.
Import ListNotations.
Local Open Scope Z_scope.

(** for _, tag := range event.Tags: tags with fewer than two items are skipped; [f] is given the name, the value, and what follows *)
Definition over_tags {A} (f : A -> str -> str -> list str -> A) (ts : list tag) (a : A) : A :=
  fold_left (fun a t => match t with k :: v :: rest => f a k v rest | _ => a end) ts a.
(** if v != "" { append Tag{k, v} } *)
Definition opt_tag (k v : str) : list tag := match v with [] => [] | _ => [[k; v]] end.
(** if len(l) > 0 { append the tag with all of l } *)
Definition list_tag (k : str) (l : list str) : list tag := match l with [] => [] | _ => [k :: l] end.

(** ** nip34/repository.go:10-21, without the embedded event *)
Record repo := mkRepo { rp_id : str; rp_name : str; rp_description : str; rp_web : list str; rp_clone : list str; rp_relays : list str; rp_euc : str; rp_maintainers : list str }.
(** nip34/repository.go:28-51 *)
Definition repo_step (r : repo) (k v : str) (rest : list str) : repo :=
  if seqb k (B "d") then mkRepo v (rp_name r) (rp_description r) (rp_web r) (rp_clone r) (rp_relays r) (rp_euc r) (rp_maintainers r)
  else if seqb k (B "name") then mkRepo (rp_id r) v (rp_description r) (rp_web r) (rp_clone r) (rp_relays r) (rp_euc r) (rp_maintainers r)
  else if seqb k (B "description") then mkRepo (rp_id r) (rp_name r) v (rp_web r) (rp_clone r) (rp_relays r) (rp_euc r) (rp_maintainers r)
  else if seqb k (B "web") then mkRepo (rp_id r) (rp_name r) (rp_description r) (rp_web r ++ v :: rest) (rp_clone r) (rp_relays r) (rp_euc r) (rp_maintainers r)
  else if seqb k (B "clone") then mkRepo (rp_id r) (rp_name r) (rp_description r) (rp_web r) (rp_clone r ++ v :: rest) (rp_relays r) (rp_euc r) (rp_maintainers r)
  else if seqb k (B "relays") then mkRepo (rp_id r) (rp_name r) (rp_description r) (rp_web r) (rp_clone r) (rp_relays r ++ v :: rest) (rp_euc r) (rp_maintainers r)
  else if seqb k (B "r") then mkRepo (rp_id r) (rp_name r) (rp_description r) (rp_web r) (rp_clone r) (rp_relays r) v (rp_maintainers r)
  else if seqb k (B "maintainers") then mkRepo (rp_id r) (rp_name r) (rp_description r) (rp_web r) (rp_clone r) (rp_relays r) (rp_euc r) (rp_maintainers r ++ v :: rest)
  else r.
Definition parse_repo (ts : list tag) : repo := over_tags repo_step ts (mkRepo [] [] [] [] [] [] [] []).
(** nip34/repository.go:56-98, the tags *)
Definition repo_tags (r : repo) : list tag :=
  [[B "d"; rp_id r]] ++ opt_tag (B "name") (rp_name r) ++ opt_tag (B "description") (rp_description r) ++
  (match rp_euc r with [] => [] | c => [[B "r"; c; B "euc"]] end) ++
  list_tag (B "maintainers") (rp_maintainers r) ++ list_tag (B "web") (rp_web r) ++ list_tag (B "clone") (rp_clone r) ++ list_tag (B "relays") (rp_relays r).

(** ** nip34/state.go:9-16: the maps as association lists *)
Definition smap := list (str * str).
Definition put (k v : str) (m : smap) : smap := (k, v) :: filter (fun x => negb (seqb (fst x) k)) m.
Definition get (k : str) (m : smap) : option str := option_map snd (find (fun x => seqb (fst x) k) m).
Record rstate := mkState { rs_id : str; rs_head : str; rs_tags : smap; rs_branches : smap }.
(** nip34/state.go:25-46 *)
Definition state_step (s : rstate) (k v : str) (_ : list str) : rstate :=
  if seqb k (B "d") then mkState v (rs_head s) (rs_tags s) (rs_branches s)
  else if seqb k (B "HEAD") then
    if has_prefix v (B "ref: refs/heads/") then mkState (rs_id s) (skipn 16 v) (rs_tags s) (rs_branches s) else s
  else if has_prefix k (B "refs/heads/") then mkState (rs_id s) (rs_head s) (rs_tags s) (put (skipn 11 k) v (rs_branches s))
  else if has_prefix k (B "refs/tags/") then mkState (rs_id s) (rs_head s) (put (skipn 10 k) v (rs_tags s)) (rs_branches s)
  else s.
Definition parse_state (ts : list tag) : rstate := over_tags state_step ts (mkState [] [] [] []).
(** nip34/state.go:51-66: the maps in the order the iteration gives them *)
Definition state_tags (id head : str) (branches tags : smap) : list tag :=
  [[B "d"; id]] ++ map (fun x => [B "refs/heads/" ++ fst x; snd x]) branches ++ map (fun x => [B "refs/tags/" ++ fst x; snd x]) tags ++
  (match head with [] => [] | h => [[B "HEAD"; B "ref: refs/heads/" ++ h]] end).

(** ** nip34/patch.go:10-59: the repository; the diff itself is a library's *)
Definition has_colon (s : str) : bool := existsb (fun c => ceqb c ":"%char) s.
Definition patch_step (p : entity_pointer) (k v : str) (rest : list str) : entity_pointer :=
  if seqb k (B "a") then
    match split3 v with   (* strings.Split with exactly three parts *)
    | Some (_, pk, id) => if has_colon id then p else if valid_32byte_hex pk then mkEntity pk 30617 id (match rest with r :: _ => Some [r] | [] => en_relays p end) else p
    | None => p
    end
  else p.
Definition patch_repo (ts : list tag) : entity_pointer := over_tags patch_step ts (mkEntity [] 0 [] None).

(** ** nip94/nip94.go *)
Record fmeta := mkFile { fm_magnet : str; fm_dim : str; fm_size : str; fm_summary : str; fm_image : str; fm_url : str; fm_m : str; fm_x : str; fm_ox : str; fm_hash : str; fm_blurhash : str; fm_thumb : str; fm_content : str }.
(** nip94/nip94.go:9-39 *)
Definition file_step (f : fmeta) (k v : str) (_ : list str) : fmeta :=
  let '(mkFile mg d s su im u m x o h b t c) := f in
  if seqb k (B "url") then mkFile mg d s su im v m x o h b t c
  else if seqb k (B "x") then mkFile mg d s su im u m v o h b t c
  else if seqb k (B "ox") then mkFile mg d s su im u m x v h b t c
  else if seqb k (B "size") then mkFile mg d v su im u m x o h b t c
  else if seqb k (B "dim") then mkFile mg v s su im u m x o h b t c
  else if seqb k (B "magnet") then mkFile v d s su im u m x o h b t c
  else if seqb k (B "i") then mkFile mg d s su im u m x o v b t c
  else if seqb k (B "blurhash") then mkFile mg d s su im u m x o h v t c
  else if seqb k (B "thumb") then mkFile mg d s su v u m x o h b t c
  else if seqb k (B "summary") then mkFile mg d s v im u m x o h b t c
  else f.
Definition parse_file (ts : list tag) : fmeta := over_tags file_step ts (mkFile [] [] [] [] [] [] [] [] [] [] [] [] []).
(** nip94/nip94.go:69-108 *)
Definition file_tags (f : fmeta) : list tag :=
  opt_tag (B "url") (fm_url f) ++ opt_tag (B "m") (fm_m f) ++ opt_tag (B "x") (fm_x f) ++ opt_tag (B "ox") (fm_ox f) ++ opt_tag (B "size") (fm_size f) ++
  opt_tag (B "dim") (fm_dim f) ++ opt_tag (B "magnet") (fm_magnet f) ++ opt_tag (B "i") (fm_hash f) ++ opt_tag (B "blurhash") (fm_blurhash f) ++
  opt_tag (B "thumb") (fm_thumb f) ++ opt_tag (B "image") (fm_image f) ++ opt_tag (B "summary") (fm_summary f).
(** nip94/nip94.go:57-68: strings.Split(fm.M, "/")[0] *)
Fixpoint before_slash (s : str) : str := match s with [] => [] | c :: r => if ceqb c "/"%char then [] else c :: before_slash r end.
Definition is_image (f : fmeta) : bool := seqb (before_slash (fm_m f)) (B "image").
Definition display_image (f : fmeta) : str := match fm_image f with [] => if is_image f then fm_url f else [] | i => i end.

(** ** nip53/nip53.go. A time.Time is its Unix second (parts of seconds and the zone are left out); the zero Time is 1 January of year 1. *)
Definition zero_time : Z := -62135596800.
Record participant := mkPart { pt_pubkey : str; pt_relay : str; pt_role : str }.
Definition part_of (v : str) (rest : list str) : list participant :=   (* nip53.go:66-78, nip52 calendar_event.go:81-93 *)
  if valid_32byte_hex v then [mkPart v (nth 0 rest []) (nth 1 rest [])] else [].
Definition part_tag (p : participant) : tag := [B "p"; pt_pubkey p; pt_relay p; pt_role p].
Record live := mkLive { lv_id : str; lv_title : str; lv_summary : str; lv_image : str; lv_status : str; lv_current : Z; lv_total : Z; lv_streaming : list str; lv_recording : list str;
  lv_starts : Z; lv_ends : Z; lv_parts : list participant; lv_hashtags : list str; lv_relays : list str }.
(** strconv.Atoi with the error dropped: a number out of range gives the nearest int, other text 0 *)
Definition atoi_value (s : str) : Z :=
  match s with
  | [] => 0
  | c :: r => let neg := ceqb c "-"%char in
              match parse_digits (if neg || ceqb c "+"%char then r else s) with
              | None => 0
              | Some n => let z := if neg then - Z.of_N n else Z.of_N n in if z <? min_int64 then min_int64 else if max_int64 <? z then max_int64 else z
              end
  end.
(** nip53/nip53.go:32-91. Line 58: the inner switch asks for "start" and "end", which the outer case excludes, so v is never stored. *)
Definition live_step (e : live) (k v : str) (rest : list str) : live :=
  let '(mkLive i t s im st c to sr rc a b ps h rs) := e in
  if seqb k (B "d") then mkLive v t s im st c to sr rc a b ps h rs
  else if seqb k (B "title") then mkLive i v s im st c to sr rc a b ps h rs
  else if seqb k (B "summary") then mkLive i t v im st c to sr rc a b ps h rs
  else if seqb k (B "image") then mkLive i t s v st c to sr rc a b ps h rs
  else if seqb k (B "status") then mkLive i t s im v c to sr rc a b ps h rs
  else if seqb k (B "starts") || seqb k (B "ends") then
    match parse_int v with
    | None => e
    | Some z => if seqb k (B "start") then mkLive i t s im st c to sr rc z b ps h rs else if seqb k (B "end") then mkLive i t s im st c to sr rc a z ps h rs else e
    end
  else if seqb k (B "streaming") then mkLive i t s im st c to (sr ++ [v]) rc a b ps h rs
  else if seqb k (B "recording") then mkLive i t s im st c to sr (rc ++ [v]) a b ps h rs
  else if seqb k (B "p") then mkLive i t s im st c to sr rc a b (ps ++ part_of v rest) h rs
  else if seqb k (B "relays") then mkLive i t s im st c to sr rc a b ps h (rs ++ [v])
  else if seqb k (B "t") then mkLive i t s im st c to sr rc a b ps (h ++ [v]) rs
  else if seqb k (B "current_participants") then mkLive i t s im st (atoi_value v) to sr rc a b ps h rs
  else if seqb k (B "total_participants") then mkLive i t s im st c (atoi_value v) sr rc a b ps h rs
  else e.
Definition parse_live (ts : list tag) : live := over_tags live_step ts (mkLive [] [] [] [] [] 0 0 [] [] zero_time zero_time [] [] []).
(** nip53/nip53.go:93-100: a copy of the first participant with the role *)
Definition get_host (e : live) : option participant := find (fun p => seqb (pt_role p) (B "host")) (lv_parts e).
(** nip53/nip53.go:102-137 *)
Definition live_tags (e : live) : list tag :=
  [[B "d"; lv_id e]; [B "title"; lv_title e]] ++ (match lv_image e with [] => [] | _ => [[B "image"; lv_title e]] end) ++
  [[B "start"; dec_Z (lv_starts e)]] ++ (if lv_ends e =? zero_time then [] else [[B "end"; dec_Z (lv_ends e)]]) ++
  map (fun u => [B "streaming"; u]) (lv_streaming e) ++ map (fun u => [B "recording"; u]) (lv_recording e) ++ map part_tag (lv_parts e) ++
  map (fun h => [B "t"; h]) (lv_hashtags e) ++ (if lv_current e =? 0 then [] else [[B "current_participants"; dec_Z (lv_current e)]]) ++
  (if lv_total e =? 0 then [] else [[B "total_participants"; dec_Z (lv_total e)]]) ++ map (fun r => [B "relay"; r]) (lv_relays e).

(** ** nip52/calendar_event.go. time.Format and time.Parse with the layout "2006-01-02" are given. *)
Section Calendar.
Variable format_date : Z -> str.
Variable parse_date : str -> option Z.
Record calev := mkCal { ca_kind : Z; ca_id : str; ca_title : str; ca_image : str; ca_start : Z; ca_end : Z; ca_locations : list str; ca_geohashes : list str; ca_parts : list participant;
  ca_refs : list str; ca_hashtags : list str; ca_start_tz : str; ca_end_tz : str }.
(** nip52/calendar_event.go:38-104 *)
Definition cal_step (e : calev) (k v : str) (rest : list str) : calev :=
  let '(mkCal kd i t im a b lo ge ps rf h s1 s2) := e in
  if seqb k (B "d") then mkCal kd v t im a b lo ge ps rf h s1 s2
  else if seqb k (B "title") then mkCal kd i v im a b lo ge ps rf h s1 s2
  else if seqb k (B "image") then mkCal kd i t v a b lo ge ps rf h s1 s2
  else if seqb k (B "start") || seqb k (B "end") then
    match (if kd =? 31923 then parse_int v else if kd =? 31922 then parse_date v else Some zero_time) with
    | None => e
    | Some z => if seqb k (B "start") then mkCal kd i t im z b lo ge ps rf h s1 s2 else mkCal kd i t im a z lo ge ps rf h s1 s2
    end
  else if seqb k (B "location") then mkCal kd i t im a b (lo ++ [v]) ge ps rf h s1 s2
  else if seqb k (B "g") then mkCal kd i t im a b lo (ge ++ [v]) ps rf h s1 s2
  else if seqb k (B "p") then mkCal kd i t im a b lo ge (ps ++ part_of v rest) rf h s1 s2
  else if seqb k (B "r") then mkCal kd i t im a b lo ge ps (rf ++ [v]) h s1 s2
  else if seqb k (B "t") then mkCal kd i t im a b lo ge ps rf (h ++ [v]) s1 s2
  else if seqb k (B "start_tzid") then mkCal kd i t im a b lo ge ps rf h v s2
  else if seqb k (B "end_tzid") then mkCal kd i t im a b lo ge ps rf h s1 v
  else e.
Definition parse_cal (kind : Z) (ts : list tag) : calev := over_tags cal_step ts (mkCal kind [] [] [] zero_time zero_time [] [] [] [] [] [] []).
(** nip52/calendar_event.go:106-142 *)
Definition cal_tags (e : calev) : list tag :=
  [[B "d"; ca_id e]; [B "title"; ca_title e]] ++ (match ca_image e with [] => [] | _ => [[B "image"; ca_title e]] end) ++
  (if ca_kind e =? 31923 then [B "start"; dec_Z (ca_start e)] :: (if ca_end e =? zero_time then [] else [[B "end"; dec_Z (ca_end e)]])
   else if ca_kind e =? 31922 then [B "start"; format_date (ca_start e)] :: (if ca_end e =? zero_time then [] else [[B "end"; format_date (ca_end e)]])
   else []) ++
  map (fun l => [B "location"; l]) (ca_locations e) ++ map (fun g => [B "g"; g]) (ca_geohashes e) ++ map part_tag (ca_parts e) ++
  map (fun r => [B "r"; r]) (ca_refs e) ++ map (fun h => [B "t"; h]) (ca_hashtags e).
End Calendar.
