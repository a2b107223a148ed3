(** C130: the SQL behind the relay hints. *)
From Verif Require Import Base EventModel SqlHintsModel.
Import ListNotations.

(** ** Placeholders *)
Fixpoint commas (l : list str) : str := match l with [] => [] | [x] => x | x :: r => x ++ B "," ++ commas r end.
(** As many placeholders as asked for: unnumbered for one database, numbered from the start for the other. *)
Theorem C130_spots start n : spots Sqlite start n = commas (repeat (B "?") n) /\ spots Postgres start n = commas (map (fun k => B "$" ++ dec_Z (Z.of_nat k)) (seq (S start) n)).
Proof.
  cbn [spots]. split.
  - induction n as [|[|n] IH]; try reflexivity. cbn [spots_q repeat commas] in *. rewrite IH. reflexivity.
  - revert start. induction n as [|n IH]; intro start; [reflexivity|]. cbn [spots_d]. rewrite IH. destruct n as [|n]; [cbn [seq map commas spots_d]; rewrite app_nil_r; reflexivity|].
    cbn [seq map commas]. rewrite <- !app_assoc. reflexivity.
Qed.
(** The arguments a text asks for, in the order in which it does: each ? for the next one, each $ for that with the number after it. *)
Fixpoint asks_q (next : nat) (s : str) : list nat := match s with [] => [] | c :: r => if ceqb c "?"%char then next :: asks_q (S next) r else asks_q next r end.
Definition digit (c : ascii) : option nat := if (48 <=? val c)%N && (val c <=? 57)%N then Some (N.to_nat (val c - 48)) else None.
Fixpoint asks_d (open : option nat) (s : str) : list nat :=
  let shut := match open with Some n => [n] | None => [] end in
  match s with
  | [] => shut
  | c :: r => if ceqb c "$"%char then shut ++ asks_d (Some 0) r
              else match open, digit c with Some n, Some d => asks_d (Some (10 * n + d)) r | _, _ => shut ++ asks_d None r end
  end.
Definition asks (d : database) (s : str) : list nat := match d with Sqlite => asks_q 1 s | Postgres => asks_d None s end.
(** Saving passes the key, the relay and the time twice; a query the key and the number wanted. Both databases take each argument once and in this order. *)
Theorem C130_arguments d : (forall k, asks d (save_sql d k) = [1; 2; 3; 4]) /\ asks d (topn_sql d) = [1; 2].
Proof. destruct d; (split; [intros []|]; vm_compute; reflexivity). Qed.
(** Each kind of hint has its own column, and the four points are these. *)
Theorem C130_columns k k' : column k = column k' -> k = k'.
Proof. destruct k, k'; intro H; try reflexivity; vm_compute in H; discriminate. Qed.
Theorem C130_texts : save_sql Postgres LastInHint = B "INSERT INTO nostr_sdk_pubkey_relays (pubkey, relay, last_in_hint) VALUES ($1,$2,$3)" ++ map byte_of [10; 9; 9; 9]%N ++
    B " ON CONFLICT (pubkey, relay) DO UPDATE SET last_in_hint = greatest($4, coalesce(excluded.last_in_hint, 0))" /\
  topn_sql Sqlite = B "SELECT relay FROM nostr_sdk_pubkey_relays WHERE pubkey = ? ORDER BY (" ++
    B "(CASE WHEN last_fetch_attempt IS NOT NULL THEN 10000000000 * -500 / power(max(1, (unixepoch() + 86400) - last_fetch_attempt), 1.3) ELSE 0 END) + " ++
    B "(CASE WHEN most_recent_event_fetched IS NOT NULL THEN 10000000000 * 700 / power(max(1, (unixepoch() + 86400) - most_recent_event_fetched), 1.3) ELSE 0 END) + " ++
    B "(CASE WHEN last_in_relay_list IS NOT NULL THEN 10000000000 * 350 / power(max(1, (unixepoch() + 86400) - last_in_relay_list), 1.3) ELSE 0 END) + " ++
    B "(CASE WHEN last_in_hint IS NOT NULL THEN 10000000000 * 20 / power(max(1, (unixepoch() + 86400) - last_in_hint), 1.3) ELSE 0 END)) DESC LIMIT ?" /\
  score_sql Postgres <> score_sql Sqlite /\ max_func Postgres = B "greatest" /\ epoch_func Postgres = B "extract(epoch from now())" /\ max_func Sqlite = B "max".
Proof. repeat split; try (vm_compute; reflexivity). intro H. vm_compute in H. discriminate. Qed.
(** For each kind of hint the column inserted, the one updated and the one compared are the same. *)
Theorem C130_one_column k : let name := match k with LastFetchAttempt => B "last_fetch_attempt" | MostRecentEventFetched => B "most_recent_event_fetched" | LastInRelayList => B "last_in_relay_list" | LastInHint => B "last_in_hint" end in
  save_sql Sqlite k = B "INSERT INTO nostr_sdk_pubkey_relays (pubkey, relay, " ++ name ++ B ") VALUES (?,?,?)" ++ map byte_of [10; 9; 9; 9]%N ++ B " ON CONFLICT (pubkey, relay) DO UPDATE SET " ++ name ++ B " = max(?, coalesce(excluded." ++ name ++ B ", 0))" /\
  save_sql Postgres k = B "INSERT INTO nostr_sdk_pubkey_relays (pubkey, relay, " ++ name ++ B ") VALUES ($1,$2,$3)" ++ map byte_of [10; 9; 9; 9]%N ++ B " ON CONFLICT (pubkey, relay) DO UPDATE SET " ++ name ++ B " = greatest($4, coalesce(excluded." ++ name ++ B ", 0))".
Proof. destruct k; vm_compute; split; reflexivity. Qed.

(** ** Opening *)
Definition six : list str := [B "pubkey"; B "relay"; B "last_fetch_attempt"; B "most_recent_event_fetched"; B "last_in_relay_list"; B "last_in_hint"].
(** A database nobody has used. *)
Theorem C130_fresh : open_hints (mkHdb None None) = (mkHdb (Some [2%Z]) (Some (mkHtable six [])), true).
Proof. vm_compute. reflexivity. Qed.
(** A row as version one wrote it, and what is left of it. *)
Definition old_row (pk r : str) (a e l t p n i : option Z) : hrow :=
  mkHrow pk r [(B "last_fetch_attempt", a); (B "most_recent_event_fetched", e); (B "last_in_relay_list", l); (B "last_in_tag", t); (B "last_in_nprofile", p); (B "last_in_nevent", n); (B "last_in_nip05", i)].
Definition new_row (pk r : str) (a e l h : option Z) : hrow := mkHrow pk r [(B "last_fetch_attempt", a); (B "most_recent_event_fetched", e); (B "last_in_relay_list", l); (B "last_in_hint", h)].
Inductive moved : hrow -> hrow -> Prop := Moved pk r a e l t p n i : moved (old_row pk r a e l t p n i) (new_row pk r a e l None).
(** Any number of rows of the first version come through the change of layout, each with its three other times. *)
Theorem C130_from_one rows : Forall (fun x => exists pk r a e l t p n i, x = old_row pk r a e l t p n i) rows ->
  exists rows', open_hints (mkHdb (Some [1%Z]) (Some (mkHtable columns0 rows))) = (mkHdb (Some [2%Z]) (Some (mkHtable six rows')), true) /\ Forall2 moved rows rows'.
Proof.
  intro F. eexists. split; [vm_compute; reflexivity|]. induction F as [|x rows (pk & r & a & e & l & t & p & n & i & ->) F IH]; [constructor|]. cbn [map]. constructor; [apply Moved|exact IH].
Qed.
(** Whatever the database: opening it again changes nothing, and a failed attempt leaves it as it was. *)
Lemma again v vt t : v <> 0%Z -> v <> 1%Z -> vt <> [] -> migrate (mkHdb (Some (map (fun _ : Z => v) vt)) t) = Some (mkHdb (Some (map (fun _ : Z => v) vt)) t).
Proof.
  intros V0 V1 NE. destruct vt as [|x vt]; [contradiction|]. unfold migrate. cbn [db_version db_table map]. destruct (Z.eqb_spec v 0) as [|_]; [contradiction|]. destruct (Z.eqb_spec v 1) as [|_]; [contradiction|]. cbn [chain map]. rewrite map_map. reflexivity.
Qed.
Theorem C130_again d d' ok : open_hints d = (d', ok) -> (d' = d \/ migrate d = Some d') /\ exists ok', open_hints d' = (d', ok') /\ (ok = true -> ok' = true).
Proof.
  unfold open_hints. destruct (migrate d) as [x|] eqn:M.
  - intro H. assert (x = d' /\ prepared x = ok) as [-> <-] by (split; congruence). split; [right; reflexivity|].
    assert (A : migrate d' = Some d').
    { unfold migrate in M. set (vt := match db_version d with Some l => l | None => [] end) in *. destruct (match vt with v :: _ => v | [] => 0%Z end =? 0)%Z eqn:E0.
      - destruct (1 =? 1)%Z eqn:E1; [|discriminate]. match type of M with chain (chain (drop_column _ ?t) ?f) _ = _ => destruct (drop_column (B "last_in_tag") t) as [t1|]; [|discriminate] end. cbn [chain] in M.
        destruct (drop_column (B "last_in_nprofile") t1) as [t2|]; [|discriminate]. cbn [chain] in M. destruct (drop_column (B "last_in_nevent") t2) as [t3|]; [|discriminate]. cbn [chain] in M.
        destruct (drop_column (B "last_in_nip05") t3) as [t4|]; [|discriminate]. cbn [chain] in M. destruct (add_column (B "last_in_hint") t4) as [t5|]; [|discriminate]. cbn [chain] in M.
        match type of M with Some ?z = _ => assert (d' = z) as -> by congruence end. apply again; try discriminate. destruct vt; discriminate.
      - apply Z.eqb_neq in E0. assert (NE : vt <> []) by (intro Q; rewrite Q in E0; apply E0; reflexivity). set (v := match vt with v :: _ => v | [] => 0%Z end) in *. destruct (Z.eqb_spec v 1) as [E1|E1].
        + destruct (drop_column (B "last_in_tag") (db_table d)) as [t1|]; [|discriminate]. cbn [chain] in M. destruct (drop_column (B "last_in_nprofile") t1) as [t2|]; [|discriminate]. cbn [chain] in M.
          destruct (drop_column (B "last_in_nevent") t2) as [t3|]; [|discriminate]. cbn [chain] in M. destruct (drop_column (B "last_in_nip05") t3) as [t4|]; [|discriminate]. cbn [chain] in M.
          destruct (add_column (B "last_in_hint") t4) as [t5|]; [|discriminate]. cbn [chain] in M. match type of M with Some ?z = _ => assert (d' = z) as -> by congruence end. apply again; try discriminate. exact NE.
        + cbn [chain] in M. match type of M with Some ?z = _ => assert (d' = z) as -> by congruence end. apply again; assumption. }
    rewrite A. eexists. split; [reflexivity|]. auto.
  - intro H. assert (d = d' /\ ok = false) as [<- ->] by (split; congruence). split; [left; reflexivity|]. rewrite M. eexists. split; [reflexivity|]. discriminate.
Qed.
(** A database that can be used has a column for every kind of hint. *)
Theorem C130_usable d d' : open_hints d = (d', true) -> exists t, db_table d' = Some t /\ forall k, In (column k) (ht_cols t).
Proof.
  intro H. assert (P : prepared d' = true) by (unfold open_hints in H; destruct (migrate d); congruence). unfold prepared in P. destruct (db_table d') as [t|]; [|discriminate]. exists t. split; [reflexivity|]. intro k.
  assert (IK : In (column k) (B "pubkey" :: B "relay" :: map column hkeys)) by (right; right; apply in_map; destruct k; cbn; auto). rewrite forallb_forall in P. specialize (P _ IK). apply existsb_exists in P as (x & X & Q). apply seqb_eq in Q. rewrite Q. exact X.
Qed.
(** False: what was known from tags, profiles, events and names is still known after the change of layout. *)
Theorem C130_hints_kept_refuted : exists row row', open_hints (mkHdb (Some [1%Z]) (Some (mkHtable columns0 [row]))) = (mkHdb (Some [2%Z]) (Some (mkHtable six [row'])), true) /\
  In (B "last_in_tag", Some 1700000000%Z) (hr_cells row) /\ forall c z, In (c, Some z) (hr_cells row') -> False.
Proof.
  exists (old_row (B "pk") (B "wss://r") None None None (Some 1700000000%Z) None None None). eexists. split; [vm_compute; reflexivity|]. split; [cbn; tauto|].
  intros c z H. cbn in H. repeat destruct H as [H|H]; try discriminate; exact H.
Qed.
(** Any number but zero and one is taken as this version's. *)
Theorem C130_later t v : v <> 0%Z -> v <> 1%Z -> open_hints (mkHdb (Some [v]) t) = (mkHdb (Some [v]) t, prepared (mkHdb (Some [v]) t)).
Proof. intros V0 V1. unfold open_hints. pose proof (again v [v] t V0 V1 ltac:(discriminate)) as A. cbn [map] in A. rewrite A. reflexivity. Qed.
(** False: the database of a later version is refused. *)
Theorem C130_later_refuted : exists d, db_version d = Some [3%Z] /\ open_hints d = (d, true).
Proof. exists (mkHdb (Some [3%Z]) (Some (mkHtable (six ++ [B "last_in_later"]) []))). vm_compute. split; reflexivity. Qed.

Example C130_example : let row := old_row (B "pk") (B "wss://r") (Some 5%Z) None (Some 7%Z) (Some 1%Z) None None (Some 2%Z) in
  open_hints (mkHdb (Some [1%Z]) (Some (mkHtable columns0 [row; row]))) = (mkHdb (Some [2%Z]) (Some (mkHtable six (let r := new_row (B "pk") (B "wss://r") (Some 5%Z) None (Some 7%Z) None in [r; r]))), true) /\
  open_hints (mkHdb (Some [1%Z]) (Some (mkHtable six []))) = (mkHdb (Some [1%Z]) (Some (mkHtable six [])), false) /\ spots Postgres 3 2 = B "$4,$5" /\ spots Sqlite 3 2 = B "?,?".
Proof. vm_compute. repeat split; reflexivity. Qed.

Print Assumptions C130_spots.
Print Assumptions C130_arguments.
Print Assumptions C130_columns.
Print Assumptions C130_texts.
Print Assumptions C130_fresh.
Print Assumptions C130_from_one.
Print Assumptions C130_again.
Print Assumptions C130_usable.
Print Assumptions C130_hints_kept_refuted.
Print Assumptions C130_later.
Print Assumptions C130_later_refuted.

Print Assumptions C130_one_column.
