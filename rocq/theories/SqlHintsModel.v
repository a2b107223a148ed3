(** The SQL behind the relay hints: /repo/sdk/hints/sqlh/db.go and interop.go, with the names and points of /repo/sdk/hints/keys.go. *)
From Verif Require Import Base EventModel.
Import ListNotations.

(** ** Statements *)
Inductive database := Sqlite | Postgres.
(** interop.go:14-46 *)
Definition max_func (d : database) : str := match d with Sqlite => B "max" | Postgres => B "greatest" end.
Definition epoch_func (d : database) : str := match d with Sqlite => B "unixepoch()" | Postgres => B "extract(epoch from now())" end.
(** interop.go:17-28: the loop, [i] of [n] done *)
Fixpoint spots_q (todo : nat) : str := match todo with O => [] | S O => B "?" | S k => B "?," ++ spots_q k end.
(** interop.go:34-46: from [i] to [i + todo] *)
Fixpoint spots_d (i todo : nat) : str :=
  match todo with O => [] | S k => B "$" ++ dec_Z (Z.of_nat (S i)) ++ (match k with O => [] | _ => B "," end) ++ spots_d (S i) k end.
Definition spots (d : database) (start n : nat) : str := match d with Sqlite => spots_q n | Postgres => spots_d start n end.
(** keys.go:9-37: the keys in their order, their columns and points *)
Inductive hkey := LastFetchAttempt | MostRecentEventFetched | LastInRelayList | LastInHint.
Definition hkeys : list hkey := [LastFetchAttempt; MostRecentEventFetched; LastInRelayList; LastInHint].
Definition column (k : hkey) : str :=
  match k with LastFetchAttempt => B "last_fetch_attempt" | MostRecentEventFetched => B "most_recent_event_fetched" | LastInRelayList => B "last_in_relay_list" | LastInHint => B "last_in_hint" end.
Definition points (k : hkey) : Z := match k with LastFetchAttempt => -500 | MostRecentEventFetched => 700 | LastInRelayList => 350 | LastInHint => 20 end.
(** db.go:133-139; the line break and three tabs are part of the text *)
Definition save_sql (d : database) (k : hkey) : str :=
  B "INSERT INTO nostr_sdk_pubkey_relays (pubkey, relay, " ++ column k ++ B ") VALUES (" ++ spots d 0 3 ++ B ")" ++ map byte_of [10; 9; 9; 9]%N ++
  B " ON CONFLICT (pubkey, relay) DO UPDATE SET " ++ column k ++ B " = " ++ max_func d ++ B "(" ++ spots d 3 1 ++ B ", coalesce(excluded." ++ column k ++ B ", 0))".
(** db.go:246-272 *)
Definition score_term (d : database) (k : hkey) : str :=
  B "(CASE WHEN " ++ column k ++ B " IS NOT NULL THEN 10000000000 * " ++ dec_Z (points k) ++ B " / power(" ++ max_func d ++ B "(1, (" ++ epoch_func d ++ B " + 86400) - " ++ column k ++ B "), 1.3) ELSE 0 END)".
Fixpoint score_terms (d : database) (l : list hkey) : str := match l with [] => [] | [k] => score_term d k | k :: r => score_term d k ++ B " + " ++ score_terms d r end.
Definition score_sql (d : database) : str := score_terms d hkeys.
(** db.go:150-153 *)
Definition topn_sql (d : database) : str :=
  B "SELECT relay FROM nostr_sdk_pubkey_relays WHERE pubkey = " ++ spots d 0 1 ++ B " ORDER BY (" ++ score_sql d ++ B ") DESC LIMIT " ++ spots d 1 1.

(** ** Opening a database *)
(** One row of the hints: key, relay, and a value (None: NULL) for each further column. The unique index keeps two rows from having the same key and relay. *)
Record hrow := mkHrow { hr_pubkey : str; hr_relay : str; hr_cells : list (str * option Z) }.
Record htable := mkHtable { ht_cols : list str; ht_rows : list hrow }.
(** [db_version]: the rows of nostr_sdk_db_version; None: no such table *)
Record hdb := mkHdb { db_version : option (list Z); db_table : option htable }.
(** ALTER TABLE ... DROP COLUMN and ADD COLUMN; errors if there is no such table, no such column, or there is one already *)
Definition drop_column (c : str) (t : option htable) : option (option htable) :=
  match t with
  | Some t => if existsb (seqb c) (ht_cols t) then
      Some (Some (mkHtable (filter (fun x => negb (seqb c x)) (ht_cols t)) (map (fun r => mkHrow (hr_pubkey r) (hr_relay r) (filter (fun x => negb (seqb c (fst x))) (hr_cells r))) (ht_rows t))))
    else None
  | None => None
  end.
Definition add_column (c : str) (t : option htable) : option (option htable) :=
  match t with
  | Some t => if existsb (seqb c) (ht_cols t) then None
    else Some (Some (mkHtable (ht_cols t ++ [c]) (map (fun r => mkHrow (hr_pubkey r) (hr_relay r) (hr_cells r ++ [(c, None)])) (ht_rows t))))
  | None => None
  end.
Definition chain {A B} (o : option A) (f : A -> option B) : option B := match o with Some x => f x | None => None end.
(** db.go:56-69 *)
Definition columns0 : list str :=
  [B "pubkey"; B "relay"; B "last_fetch_attempt"; B "most_recent_event_fetched"; B "last_in_relay_list"; B "last_in_tag"; B "last_in_nprofile"; B "last_in_nevent"; B "last_in_nip05"].
(** db.go:37-130, one transaction: None means an error and a rollback. The indexes (db.go:70-83) are left out. *)
Definition migrate (d : hdb) : option hdb :=
  let vt := match db_version d with Some l => l | None => [] end in                     (* 40-43 *)
  let version := match vt with v :: _ => v | [] => 0%Z end in                           (* 44-48 *)
  let '(vt, version, t) :=
    if (version =? 0)%Z then (vt ++ [0%Z], 1%Z, match db_table d with Some t => Some t | None => Some (mkHtable columns0 []) end) else (vt, version, db_table d) in   (* 50-84 *)
  chain (if (version =? 1)%Z then                                                       (* 86-118 *)
           chain (drop_column (B "last_in_tag") t) (fun t => chain (drop_column (B "last_in_nprofile") t) (fun t => chain (drop_column (B "last_in_nevent") t) (fun t =>
           chain (drop_column (B "last_in_nip05") t) (fun t => chain (add_column (B "last_in_hint") t) (fun t => Some (2%Z, t))))))
         else Some (version, t)) (fun '(version, t) =>
  Some (mkHdb (Some (map (fun _ => version) vt)) t)).                                   (* 120-129 *)
(** db.go:133-158: a statement is prepared if all columns it names are there *)
Definition prepared (d : hdb) : bool := match db_table d with Some t => forallb (fun c => existsb (seqb c) (ht_cols t)) (B "pubkey" :: B "relay" :: map column hkeys) | None => false end.
(** db.go:24-160 for a known driver: the database afterwards and whether it can be used *)
Definition open_hints (d : hdb) : hdb * bool := match migrate d with None => (d, false) | Some d' => (d', prepared d') end.
