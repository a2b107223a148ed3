(** Key-value stores, relay hints and the relays of events: /repo/sdk/kvstore, /repo/sdk/hints, /repo/sdk/event_relays.go. *)
From Verif Require Import Base Machine FilterModel Nip19Model.
Import ListNotations.

(** A Go map or a table of a store, as an association list with distinct keys: m[k] = v and delete(m, k). Look-up is FilterModel.assoc. *)
Fixpoint mset {V} (k : str) (v : V) (m : list (str * V)) : list (str * V) :=
  match m with [] => [(k, v)] | (k', w) :: r => if seqb k k' then (k, v) :: r else (k', w) :: mset k v r end.
Fixpoint mdel {V} (k : str) (m : list (str * V)) : list (str * V) :=
  match m with [] => [] | (k', w) :: r => if seqb k k' then r else (k', w) :: mdel k r end.

(** ** sdk/kvstore/memory/store.go. The store keeps the slices it is given: [Caller i] is the i-th buffer made by its user, [Own i] one
    made by the function given to Update. A nil slice is None. *)
Inductive addr := Caller (n : nat) | Own (n : nat).
Definition slice := option addr.
Record heap := mkHeap { h_caller : list str; h_own : list str }.
Definition contents (h : heap) (s : slice) : option str :=
  match s with None => None | Some (Caller n) => Some (nth n (h_caller h) []) | Some (Own n) => Some (nth n (h_own h) []) end.
(** What the function given to Update does: return kvstore.NoOp, another error, nil, a new slice, or the slice it was given. *)
Inductive ures := UNoOp | UErr | UNil | UNew (b : str) | USame.
(** [KWrite a b]: the user of the store overwrites a buffer; [KNew b]: they make one. *)
Inductive kop := KNew (b : str) | KWrite (a : addr) (b : str) | KGet (k : str) | KSet (k : str) (v : slice) | KDelete (k : str) | KUpdate (k : str) (f : option str -> ures) | KClose.
Inductive kobs := KValue (v : option str) | KDone | KFailed.
(** [k_data] is None after Close (a nil map). *)
Record kstate := mkKV { k_heap : heap; k_data : option (list (str * slice)) }.
Definition kv_init : kstate := mkKV (mkHeap [] []) (Some []).
Definition kget (d : option (list (str * slice))) (k : str) : slice :=   (* store.go:23-31; a nil map has no keys *)
  match d with Some m => match assoc k m with Some v => v | None => None end | None => None end.
(** Writing to a nil map panics, deleting from it does not. *)
Definition mem_set (d : option (list (str * slice))) (k : str) (v : slice) : outcome (option (list (str * slice))) :=
  match d with Some m => Ok (Some (mset k v m)) | None => Panic end.
Definition mem_del (d : option (list (str * slice))) (k : str) : option (list (str * slice)) := match d with Some m => Some (mdel k m) | None => None end.
Definition kv_step (o : kop) (s : kstate) : outcome (kobs * kstate) :=
  let h := k_heap s in let d := k_data s in
  match o with
  | KNew b => Ok (KDone, mkKV (mkHeap (h_caller h ++ [b]) (h_own h)) d)
  | KWrite (Caller n) b => Ok (KDone, mkKV (mkHeap (upd (h_caller h) n b) (h_own h)) d)
  | KWrite (Own n) b => Ok (KDone, mkKV (mkHeap (h_caller h) (upd (h_own h) n b)) d)
  | KGet k => Ok (KValue (contents h (kget d k)), s)
  | KSet k v => obind (mem_set d k v) (fun d => Ok (KDone, mkKV h d))          (* store.go:33-39 *)
  | KDelete k => Ok (KDone, mkKV h (mem_del d k))                           (* store.go:41-46 *)
  | KClose => Ok (KDone, mkKV h None)                                       (* store.go:48-53 *)
  | KUpdate k f =>                                                          (* store.go:55-74 *)
      match f (contents h (kget d k)) with
      | UNoOp => Ok (KDone, s)
      | UErr => Ok (KFailed, s)
      | UNil => Ok (KDone, mkKV h (mem_del d k))
      | UNew b => obind (mem_set d k (Some (Own (length (h_own h))))) (fun d => Ok (KDone, mkKV (mkHeap (h_caller h) (h_own h ++ [b])) d))
      | USame => match kget d k with
                 | None => Ok (KDone, mkKV h (mem_del d k))
                 | Some a => obind (mem_set d k (Some a)) (fun d => Ok (KDone, mkKV h d))
                 end
      end
  end.
Fixpoint kv_run (ops : list kop) (s : kstate) : outcome (list kobs * kstate) :=
  match ops with
  | [] => Ok ([], s)
  | o :: r => obind (kv_step o s) (fun '(x, s1) => obind (kv_run r s1) (fun '(xs, s2) => Ok (x :: xs, s2)))
  end.

(** ** sdk/kvstore/lmdb/store.go and sdk/kvstore/badger/store.go. Both copy in and out; LMDB's Del reports a missing key, Badger's does
    not ([strict]). The databases themselves are taken to be maps; their limits on keys and sizes, and their errors, are not modelled.
    A nil value is stored as an empty one. Close is not modelled. *)
Record dstate := mkDisk { d_caller : list str; d_data : list (str * str) }.
Definition disk_init : dstate := mkDisk [] [].
Definition disk_del (strict : bool) (k : str) (m : list (str * str)) : bool * list (str * str) :=
  match assoc k m with Some _ => (true, mdel k m) | None => (negb strict, m) end.
Definition disk_step (strict : bool) (o : kop) (s : dstate) : kobs * dstate :=
  let m := d_data s in
  let del k := let '(ok, m') := disk_del strict k m in (if ok then KDone else KFailed, mkDisk (d_caller s) m') in
  match o with
  | KNew b => (KDone, mkDisk (d_caller s ++ [b]) m)
  | KWrite (Caller n) b => (KDone, mkDisk (upd (d_caller s) n b) m)
  | KWrite (Own _) _ => (KDone, s)
  | KGet k => (KValue (assoc k m), s)                         (* lmdb/store.go:55-74, badger/store.go:26-46 *)
  | KSet k v => (KDone, mkDisk (d_caller s) (mset k (match v with Some (Caller n) => nth n (d_caller s) [] | _ => [] end) m))
  | KDelete k => del k
  | KUpdate k f => match f (assoc k m) with                   (* lmdb/store.go:93-118, badger/store.go:64-93 *)
      | UNoOp => (KDone, s) | UErr => (KFailed, s) | UNil => del k
      | UNew b => (KDone, mkDisk (d_caller s) (mset k b m))
      | USame => match assoc k m with None => del k | Some b => (KDone, mkDisk (d_caller s) (mset k b m)) end
      end
  | KClose => (KDone, s)
  end.
Fixpoint disk_run (strict : bool) (ops : list kop) (s : dstate) : list kobs * dstate :=
  match ops with [] => ([], s) | o :: r => let '(x, s1) := disk_step strict o s in let '(xs, s2) := disk_run strict r s1 in (x :: xs, s2) end.

(** ** sdk/hints/memoryh/db.go. The four kinds of hint (hints/keys.go:9-14) are 0..3; other indices panic in Go and are not modelled. *)
Definition tss := list Z.   (* [4]nostr.Timestamp *)
Definition no_tss : tss := [0; 0; 0; 0]%Z.
Definition tget (t : tss) (k : nat) : Z := nth k t 0%Z.
Record memdb := mkMemDB { md_serial : list str; md_by : list (str * list (nat * tss)) }.
Definition memdb_init : memdb := mkMemDB [] [].
Fixpoint find_index {A} (p : A -> bool) (l : list A) : option nat :=   (* slices.IndexFunc; None is -1 *)
  match l with [] => None | x :: r => if p x then Some 0 else option_map S (find_index p r) end.
Definition capped (now ts : Z) : Z := if (now <? ts)%Z then now else ts.
Definition memh_save (now : Z) (pk relay : str) (key : nat) (ts : Z) (db : memdb) : memdb :=   (* db.go:31-69 *)
  let ts := capped now ts in
  let '(ri, serial) := match find_index (seqb relay) (md_serial db) with Some i => (i, md_serial db) | None => (length (md_serial db), md_serial db ++ [relay]) end in
  let entries := match assoc pk (md_by db) with Some l => l | None => [] end in
  match find_index (fun e => Nat.eqb (fst e) ri) entries with
  | None => mkMemDB serial (mset pk (entries ++ [(ri, upd no_tss key ts)]) (md_by db))
  | Some i => match nth_error entries i with
      | Some (r, t) => if (tget t key <? ts)%Z then mkMemDB serial (mset pk (upd entries i (r, upd t key ts)) (md_by db)) else mkMemDB serial (md_by db)
      | None => mkMemDB serial (md_by db) end
  end.
(** [score now t]: RelayEntry.Sum (db.go:134-149), floating point. One clock for the whole call. [sort] is slices.SortFunc. *)
Definition take_go {A} (n : Z) (l : list A) : list A :=   (* db.go:82-87: all of [l], or up to the element at which i+1 == n *)
  if (n <? 1)%Z then l else firstn (Z.to_nat n) l.
Section Sorting.
  Variable score : Z -> tss -> Z.
  Variable sort : forall A, (A -> A -> Z) -> list A -> list A.
  Definition memh_topn (now : Z) (pk : str) (n : Z) (db : memdb) : outcome (list str * memdb) :=   (* db.go:71-90; the entries are sorted in place *)
    if (n <? 0)%Z then Panic   (* make([]string, 0, n) *)
    else match assoc pk (md_by db) with
    | None => Ok ([], db)
    | Some l => let l' := sort _ (fun a b => score now (snd b) - score now (snd a))%Z l in
        Ok (take_go n (map (fun e => nth (fst e) (md_serial db) []) l'), mkMemDB (md_serial db) (mset pk l' (md_by db)))
    end.
  (** Saves and queries in any order. *)
  Inductive hop := HSave (now : Z) (pk relay : str) (key : nat) (ts : Z) | HTop (now : Z) (pk : str) (n : Z).
  Fixpoint memh_run (ops : list hop) (db : memdb) : outcome memdb :=
    match ops with
    | [] => Ok db
    | HSave now pk relay key ts :: r => memh_run r (memh_save now pk relay key ts db)
    | HTop now pk n :: r => obind (memh_topn now pk n db) (fun '(_, db) => memh_run r db)
    end.
  Definition memh_time (db : memdb) (pk relay : str) (key : nat) : Z :=   (* as GetDetailedScores (db.go:107-131) reports it; 0: none *)
    match assoc pk (md_by db) with
    | Some l => match find (fun e => seqb (nth (fst e) (md_serial db) []) relay) l with Some (_, t) => tget t key | None => 0%Z end
    | None => 0%Z end.

  (** ** sdk/hints/lmdbh and sdk/hints/badgerh: sdk/hints/lmdbh/keys.go:10-39, sdk/hints/badgerh/keys.go:10-39, Save (sdk/hints/lmdbh/db.go:66-92,
      sdk/hints/badgerh/db.go:33-65) and TopN of db.go. The database is a map. *)
  Definition le32 (z : Z) : str :=   (* binary.LittleEndian.PutUint32 of uint32(z) *)
    let b k := byte_of (Z.to_N (z / 2 ^ (8 * k) mod 256)) in [b 0; b 1; b 2; b 3]%Z.
  Definition of_le32 (s : str) : Z := match s with [a; b; c; d] => Z.of_N (val a + 256 * (val b + 256 * (val c + 256 * val d))) | _ => 0%Z end.
  Definition kv_encode_value (t : tss) : str := le32 (tget t 0) ++ le32 (tget t 1) ++ le32 (tget t 2) ++ le32 (tget t 3).
  Definition kv_parse_value (v : str) : tss :=
    [of_le32 (firstn 4 v); of_le32 (firstn 4 (skipn 4 v)); of_le32 (firstn 4 (skipn 8 v)); of_le32 (firstn 4 (skipn 12 v))].
  (** hex.Decode into 32 zeroed bytes: stops at the first bad character, panics beyond the 32nd byte. *)
  Definition kv_encode_key (pk relay : str) : outcome str :=
    let d := hex_prefix pk in
    if Nat.ltb 32 (length d) then Panic else Ok (d ++ repeat (byte_of 0) (32 - length d) ++ relay).
  Definition kvh_save (now : Z) (pk relay : str) (key : nat) (ts : Z) (m : list (str * str)) : outcome (list (str * str)) :=
    let ts := capped now ts in
    obind (kv_encode_key pk relay) (fun k =>
      let t := match assoc k m with Some v => kv_parse_value v | None => no_tss end in
      Ok (if (tget t key <? ts)%Z then mset k (kv_encode_value (upd t key ts)) m else m)).
  Definition saved_op := (Z * str * str * nat * Z)%type.   (* now, pk, relay, key, ts *)
  Fixpoint kvh_run (ops : list saved_op) (m : list (str * str)) : outcome (list (str * str)) :=
    match ops with [] => Ok m | (now, pk, relay, key, ts) :: r => obind (kvh_save now pk relay key ts m) (kvh_run r) end.
  Definition kvh_time (m : list (str * str)) (pk relay : str) (key : nat) : Z :=
    match kv_encode_key pk relay with
    | Ok k => match assoc k m with Some v => tget (kv_parse_value v) key | None => 0%Z end
    | _ => 0%Z end.
  (** The scan of the keys of one author: LMDB compares the first 32 bytes (lmdbh/db.go:114-125), Badger uses the decoded text as a
      prefix (badgerh/db.go:86-104). *)
  Definition kvh_topn (lmdb : bool) (now : Z) (pk : str) (n : Z) (m : list (str * str)) : outcome (list str) :=
    if (n <? 0)%Z then Panic
    else let prefix := hex_prefix pk in
      let mine := filter (fun p : str * str => let (k, _) := p in if lmdb then negb (Nat.ltb (length k) 32) && seqb (firstn 32 k) prefix else has_prefix k prefix) m in
      let l := sort (str * str)%type (fun a b => score now (kv_parse_value (snd b)) - score now (kv_parse_value (snd a)))%Z mine in
      Ok (firstn (Z.to_nat n) (map (fun p : str * str => let (k, _) := p in skipn 32 k) l)).
End Sorting.

(** ** sdk/hints/sqlh/db.go: the upsert (db.go:133-147) and Save (db.go:173-183). Rows with the unique (pubkey, relay); NULL is None.
    [excluded] in an upsert is the row that was to be inserted. *)
Definition sqlrow := (str * str * list (option Z))%type.
Definition sql_max (a b : Z) : Z := Z.max a b.
Fixpoint sql_save (pk relay : str) (key : nat) (ts : Z) (rows : list sqlrow) : list sqlrow :=
  let excluded := upd (repeat None 4) key (Some ts) in
  match rows with
  | [] => [(pk, relay, excluded)]
  | (p, r, cols) :: rest =>
      if seqb p pk && seqb r relay
      then (p, r, upd cols key (Some (sql_max ts (match nth key excluded None with Some x => x | None => 0%Z end)))) :: rest
      else (p, r, cols) :: sql_save pk relay key ts rest
  end.
Fixpoint sqlh_run (ops : list saved_op) (rows : list sqlrow) : list sqlrow :=
  match ops with [] => rows | (now, pk, relay, key, ts) :: r => sqlh_run r (sql_save pk relay key (capped now ts) rows) end.
Definition sqlh_time (rows : list sqlrow) (pk relay : str) (key : nat) : Z :=   (* GetDetailedScores, db.go:212-244 *)
  match find (fun '(p, r, _) => seqb p pk && seqb r relay) rows with
  | Some (_, _, cols) => match nth key cols None with Some z => z | None => 0%Z end | None => 0%Z end.

(** ** sdk/event_relays.go. *)
Fixpoint encode_relays (relays : list str) : str :=   (* event_relays.go:25-48 *)
  match relays with
  | [] => []
  | r :: rest => if Nat.ltb 256 (length r) then encode_relays rest else byte_of (N.of_nat (length r) mod 256) :: r ++ encode_relays rest
  end.
(** event_relays.go:52-74; None is the nil of a malformed list. [fuel]: one round per byte suffices. *)
Fixpoint decode_relays_aux (fuel : nat) (data : str) : option (list str) :=
  match data with
  | [] => Some []
  | c :: rest =>
      match fuel with
      | O => None
      | S fuel => let n := N.to_nat (val c) in
          if Nat.ltb (length rest) n then None
          else option_map (cons (firstn n rest)) (decode_relays_aux fuel (skipn n rest))
      end
  end.
Definition decode_relays (data : str) : option (list str) := decode_relays_aux (length data) data.
Definition relay_key (id : str) : str := B "r" ++ firstn 8 id.   (* event_relays.go:15-21 *)
(** trackEventRelay (event_relays.go:78-111) over a store that is a map, such as those above: Update with a fresh value or NoOp. *)
Definition track (id relay : str) (only_if_exists : bool) (m : list (str * str)) : list (str * str) :=
  match hex_decode id with
  | None => m
  | Some b => if Nat.ltb (length b) 8 then m else
      match assoc (relay_key b) m with
      | Some data => let relays := match decode_relays data with Some l => l | None => [] end in
          if smem relay relays then m else mset (relay_key b) (encode_relays (relays ++ [relay])) m
      | None => if only_if_exists then m else mset (relay_key b) (encode_relays [relay]) m
      end
  end.
(** GetEventRelays (event_relays.go:115-138); a nil list is empty. *)
Definition get_event_relays (id : str) (m : list (str * str)) : outcome (list str) :=
  match hex_decode id with
  | None => Err
  | Some b => if Nat.ltb (length b) 8 then Err else
      match assoc (relay_key b) m with None => Ok [] | Some data => Ok (match decode_relays data with Some l => l | None => [] end) end
  end.
Fixpoint track_run (ops : list (str * str * bool)) (m : list (str * str)) : list (str * str) :=
  match ops with [] => m | (id, relay, only) :: r => track_run r (track id relay only m) end.
