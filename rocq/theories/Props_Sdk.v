(** C79 to C84: caches, feeds, inputs, fetching and notes in the sdk. *)
From Verif Require Import Base Machine EventModel TagsModel FilterModel Bech32Model Nip19Model Nip19Proofs StoreModel StoreProofs ListsModel Props_Lists Props_Nip19.
Import ListNotations.

(** ** C79. The cache as a map: for keys that differ in what is hashed. *)
Inductive cop (V : Type) := CSet (k : str) (v : V) | CDel (k : str).
Arguments CSet {V}. Arguments CDel {V}.
Definition cop_key {V} (o : cop V) : str := match o with CSet k _ => k | CDel k => k end.
Definition cache_run {V} (ops : list (cop V)) : list (Z * V) := fold_left (fun m o => match o with CSet k v => cache_set k v m | CDel k => cache_del k m end) ops [].
Definition last_value {V} (k : str) (ops : list (cop V)) : option V :=
  match find (fun o => seqb (cop_key o) k) (rev ops) with Some (CSet _ v) => Some v | _ => None end.
(** The last four bytes of two hexadecimal keys. *)
Definition tail4 (k : str) : str := skipn (length k - 8) k.
Lemma short_inj k l : forallb is_lower_hex_char k = true -> forallb is_lower_hex_char l = true -> 8 <= length k -> 8 <= length l -> short_uint64 k = short_uint64 l -> tail4 k = tail4 l.
Proof.
  intros HK HL LK LL. unfold short_uint64. destruct (Nat.ltb_spec (length k) 8); [lia|]. destruct (Nat.ltb_spec (length l) 8); [lia|]. fold (tail4 k) (tail4 l).
  assert (G : forall s, forallb is_lower_hex_char s = true -> 8 <= length s -> exists a b c d, hex_decode (tail4 s) = Some [a; b; c; d] /\ hex_encode [a; b; c; d] = tail4 s).
  { intros s H1 H2. assert (T : forallb is_lower_hex_char (tail4 s) = true). { unfold tail4. rewrite <- (firstn_skipn (length s - 8) s), forallb_app in H1. apply andb_true_iff in H1. apply H1. }
    assert (L8 : length (tail4 s) = 8) by (unfold tail4; rewrite skipn_length; lia). destruct (hex_encode_decode (tail4 s) T) as (b & D & E); [rewrite L8; reflexivity|].
    assert (L4 : length b = 4) by (pose proof (hex_encode_length b) as Q; rewrite E, L8 in Q; lia). destruct b as [|x [|y [|z [|w [|? ?]]]]]; try discriminate. exists x, y, z, w. auto. }
  destruct (G k HK LK) as (a & b & c & d & D1 & E1), (G l HL LL) as (a' & b' & c' & d' & D2 & E2). rewrite D1, D2. cbn [be32]. intro Q. rewrite <- E1, <- E2. f_equal. apply N2Z.inj in Q.
  pose proof (val_lt a). pose proof (val_lt b). pose proof (val_lt c). pose proof (val_lt d). pose proof (val_lt a'). pose proof (val_lt b'). pose proof (val_lt c'). pose proof (val_lt d').
  assert (val a = val a' /\ val b = val b' /\ val c = val c' /\ val d = val d')%N as (V1 & V2 & V3 & V4) by lia.
  rewrite <- (byte_of_val a), <- (byte_of_val b), <- (byte_of_val c), <- (byte_of_val d), V1, V2, V3, V4, !byte_of_val. reflexivity.
Qed.
Lemma cache_get_set {V} k l (v : V) m : cache_get l (cache_set k v m) = if (short_uint64 k =? short_uint64 l)%Z then Some v else cache_get l m.
Proof.
  unfold cache_get, cache_set. cbn [find fst]. destruct (Z.eqb_spec (short_uint64 k) (short_uint64 l)) as [E|N]; [reflexivity|]. f_equal. induction m as [|[h w] m IH]; [reflexivity|]. cbn [filter fst find]. destruct (Z.eqb_spec h (short_uint64 k)) as [->|M]; cbn [negb find fst].
  - destruct (Z.eqb_spec (short_uint64 k) (short_uint64 l)); [contradiction|exact IH].
  - rewrite IH. reflexivity.
Qed.
Lemma cache_get_del {V} k l (m : list (Z * V)) : cache_get l (cache_del k m) = if (short_uint64 k =? short_uint64 l)%Z then None else cache_get l m.
Proof.
  unfold cache_get, cache_del. induction m as [|[h w] m IH]; cbn [filter fst find]; [destruct (_ =? _)%Z; reflexivity|]. destruct (Z.eqb_spec h (short_uint64 k)) as [->|M]; cbn [negb find fst].
  - rewrite IH. destruct (_ =? _)%Z; reflexivity.
  - destruct (Z.eqb_spec h (short_uint64 l)) as [->|Q]; [|exact IH]. destruct (Z.eqb_spec (short_uint64 k) (short_uint64 l)); [congruence|reflexivity].
Qed.
(** Missing: keys with the same last four bytes, and keys that are not hexadecimal. *)
Theorem C79_cache_is_a_map_partial V (ops : list (cop V)) k : (forall l, In l (k :: map cop_key ops) -> forallb is_lower_hex_char l = true /\ 8 <= length l /\ (tail4 l = tail4 k -> l = k)) ->
  cache_get k (cache_run ops) = last_value k ops.
Proof.
  unfold cache_run, last_value. induction ops as [|o ops IH] using rev_ind; intro H; [reflexivity|]. rewrite fold_left_app, rev_unit. cbn [fold_left find].
  assert (HK := H k (or_introl eq_refl)). assert (HO : In (cop_key o) (k :: map cop_key (ops ++ [o]))) by (right; rewrite map_app; apply in_or_app; right; left; reflexivity). apply H in HO as (O1 & O2 & O3).
  assert (E : (short_uint64 (cop_key o) =? short_uint64 k)%Z = seqb (cop_key o) k).
  { destruct (seqb_spec (cop_key o) k) as [->|N]; [apply Z.eqb_refl|]. apply Z.eqb_neq. intro Q. apply N, O3. apply short_inj; try assumption; apply HK. }
  assert (I : cache_get k (fold_left (fun m o => match o with CSet k v => cache_set k v m | CDel k => cache_del k m end) ops []) = match find (fun o => seqb (cop_key o) k) (rev ops) with Some (CSet _ v) => Some v | _ => None end).
  { apply IH. intros l [<-|HI]; [apply H; left; reflexivity|]. apply H. right. rewrite map_app. apply in_or_app. auto. }
  destruct o as [k' v|k']; cbn [cop_key] in *; rewrite ?cache_get_set, ?cache_get_del, E; destruct (seqb k' k); auto.
Qed.
Print Assumptions C79_cache_is_a_map_partial.
Example C79_example : let ops := [CSet (B "00000001") 1; CSet (B "00000002") 2; CDel (B "00000001"); CSet (B "0000000000000003") 3] in
  (forall l, In l (B "00000002" :: map cop_key ops) -> forallb is_lower_hex_char l = true /\ 8 <= length l /\ (tail4 l = tail4 (B "00000002") -> l = B "00000002")) /\ last_value (B "00000002") ops = Some 2.
Proof.
  split; [|reflexivity]. intros l H. repeat destruct H as [<-|H]; try destruct H; (split; [reflexivity|]; split; [cbn; lia|]; vm_compute; congruence).
Qed.
(** Two public keys whose last four bytes agree: one gets what was stored for the other. The comment speaks of 8 bytes. *)
Theorem C79_collision_refuted : exists k l (v : nat), k <> l /\ is_hex32 k /\ is_hex32 l /\ cache_get l (cache_set k v []) = Some v.
Proof. exists (hex_encode (repeat (byte_of 7) 32)), (hex_encode (byte_of 8 :: repeat (byte_of 7) 31)), 5. split; [vm_compute; discriminate|]. split; [split; vm_compute; reflexivity|]. split; [split; vm_compute; reflexivity|]. vm_compute. reflexivity. Qed.
Print Assumptions C79_collision_refuted.
Theorem C79_not_hex_refuted : exists k l (v : nat), k <> l /\ cache_get l (cache_set k v []) = Some v /\ length k < 8 /\ 8 <= length l.
Proof. exists (B "alice"), (B "not-hexadecimal"), 5. split; [discriminate|]. split; [vm_compute; reflexivity|]. cbn. lia. Qed.
Print Assumptions C79_not_hex_refuted.

(** ** C80. A page of the feed: everything before [until] that the store or the relays have. *)
Section Feed.
Context {E : Type} (at_time : E -> Z) (events : list E).
(** Relays (and a store) that have [events] and answer with everything up to the until they are given. *)
Definition answers_until (u : Z) : list E := filter (fun e => at_time e <=? u)%Z events.
(** With a record, for a page at or before it: exactly what the relays have before [until]. *)
Theorem C80_older_page_partial now until limit t local : t <> 0%Z -> (until <= t)%Z ->
  fst (fst (feed_page at_time now until limit (Some t) local answers_until)) = filter (fun e => at_time e <? until)%Z events.
Proof.
  intros N L. unfold feed_page. assert (O : match t with 0%Z => now | _ => t end = t) by (destruct t; [contradiction|reflexivity|reflexivity]). rewrite O. assert (G : (until >? t)%Z = false) by (rewrite Z.gtb_ltb; apply Z.ltb_ge; lia). rewrite G. cbn [andb fst]. unfold answers_until.
  induction events as [|e l IH]; [reflexivity|]. cbn [filter]. destruct (Z.leb_spec (at_time e) (t + 1)), (Z.ltb_spec (at_time e) until); cbn [filter]; try lia; rewrite IH; destruct (Z.ltb_spec (at_time e) until); try lia; reflexivity.
Qed.
(** Whatever the state: what comes from relays is before [until]; otherwise it is the store's answer. *)
Theorem C80_page_bounds now until limit data local remote : forall out asked record, feed_page at_time now until limit data local remote = (out, asked, record) ->
  (asked = None /\ out = local until /\ limit <= length out) \/ (exists u, asked = Some u /\ (forall e, In e out <-> In e (remote u) /\ (at_time e < until)%Z)).
Proof.
  intros out asked record. unfold feed_page. set (o := match data with Some 0%Z => now | Some t => t | None => 0%Z end). destruct ((until >? o)%Z && Nat.leb limit (length (local until))) eqn:C; intro H; injection H as <- <- <-.
  - left. apply andb_true_iff in C as [_ C]. apply Nat.leb_le in C. auto.
  - right. exists (o + 1)%Z. split; [reflexivity|]. intro e. rewrite filter_In, Z.ltb_lt. reflexivity.
Qed.
(** The oldest time recorded is the smallest seen. *)
Theorem C80_oldest_recorded now until limit data local remote out u r : feed_page at_time now until limit data local remote = (out, Some u, Some r) ->
  (r <= u - 1)%Z /\ (forall e, In e (remote u) -> (r <= at_time e)%Z) /\ (r = (u - 1)%Z \/ exists e, In e (remote u) /\ at_time e = r).
Proof.
  unfold feed_page. set (o := match data with Some 0%Z => now | Some t => t | None => 0%Z end). destruct ((until >? o)%Z && Nat.leb limit (length (local until))); intro H; [discriminate|]. assert (U : u = (o + 1)%Z) by congruence. assert (R : r = fold_left (fun o e => if (at_time e <? o)%Z then at_time e else o) (remote u) o) by (subst u; congruence). clear H. replace (u - 1)%Z with o by lia. subst r. clearbody o. generalize (remote u). intro l. clear U.
  revert o. induction l as [|e l IH]; intro o; cbn [fold_left]; [split; [lia|split; [intros ? []|auto]]|]. destruct (IH (if (at_time e <? o)%Z then at_time e else o)) as (I1 & I2 & I3). destruct (Z.ltb_spec (at_time e) o) as [L|L].
  - split; [lia|]. split; [intros x [<-|H]; [lia|auto]|]. right. destruct I3 as [I3|(x & X1 & X2)]; [exists e; cbn [In]; auto|exists x; cbn [In]; auto].
  - split; [lia|]. split; [intros x [<-|H]; [lia|auto]|]. destruct I3 as [I3|(x & X1 & X2)]; [auto|right; exists x; cbn [In]; auto].
Qed.
End Feed.
Print Assumptions C80_older_page_partial. Print Assumptions C80_page_bounds. Print Assumptions C80_oldest_recorded.
Example C80_example : fst (fst (feed_page (fun z => z) 1000 500 2 (Some 600%Z) (fun _ => []) (answers_until (fun z => z) [700; 550; 450; 300]%Z))) = [450; 300]%Z.
Proof. reflexivity. Qed.
(** The first page: relays are asked for events up to second 1, so nothing comes. *)
Theorem C80_first_page_refuted : exists events now until limit, In 900%Z events /\ (900 < until)%Z /\ feed_page (fun z : Z => z) now until limit None (fun _ => []) (answers_until (fun z => z) events) = ([], Some 1%Z, Some 0%Z).
Proof. exists [900%Z], 1000%Z, 1000%Z, 5. split; [left; reflexivity|]. split; [lia|reflexivity]. Qed.
Print Assumptions C80_first_page_refuted.
(** When the store has some but not enough, what it has is dropped. *)
Theorem C80_local_events_lost_refuted : exists events now until limit t, In 900%Z events /\ (900 < until)%Z /\ (forall e, In e events -> (e <= now)%Z) /\ ~ In 900%Z (fst (fst (feed_page (fun z : Z => z) now until limit (Some t) (answers_until (fun z => z) events) (answers_until (fun z => z) events)))).
Proof. exists [900; 100]%Z, 1000%Z, 950%Z, 5, 500%Z. split; [left; reflexivity|]. split; [lia|]. split; [intros e [<-|[<-|[]]]; lia|]. vm_compute. intros [H|[]]. discriminate. Qed.
Print Assumptions C80_local_events_lost_refuted.

(** ** C81. *)
Lemma raw_of_nip19 s prefix c : nip19_decode s = Ok (prefix, c) -> raw_decode s = Ok (prefix, Some c).
Proof.
  unfold nip19_decode, raw_decode. destruct (decode s) as [[p bits5]| |]; try discriminate. cbn [obind]. destruct (convert_bits bits5 5 8 false) as [nums| |]; try discriminate. cbn [obind].
  destruct (seqb p (B "npub") || seqb p (B "nsec") || seqb p (B "note")).
  - destruct (Nat.eqb _ 32); [|discriminate]. cbn [negb]. congruence.
  - destruct (seqb p (B "nprofile")); [destruct (tlv_loop _ profile_entry _ _) as [q| |]; cbn [obind]; try discriminate; destruct (empty _); congruence|].
    destruct (seqb p (B "nevent")); [destruct (tlv_loop _ event_entry _ _) as [q| |]; cbn [obind]; try discriminate; destruct (empty _); congruence|].
    destruct (seqb p (B "naddr")); [|discriminate]. destruct (tlv_loop _ entity_entry _ _) as [q| |]; cbn [obind]; try discriminate. destruct (_ || _); congruence.
Qed.
Lemma not_hex s h d : decode s = Ok (h, d) -> (exists r, h = "n"%char :: r) -> hex_decode s = None.
Proof.
  intros D [r ->]. unfold decode in D. destruct (Nat.ltb_spec (length s) 8); [discriminate|]. destruct (negb _); [discriminate|]. destruct (_ && _); [discriminate|]. destruct (split_last (map lower s)) as [[hrp data]|] eqn:S; [|discriminate]. destruct (_ || _); [discriminate|]. destruct (to_values data); [|discriminate]. destruct (_ || _); [|discriminate].
  assert (hrp = "n"%char :: r) as -> by congruence. destruct s as [|c s]; [discriminate|]. cbn [map split_last] in S. assert (lower c = "n"%char).
  { destruct (split_last (map lower s)) as [[a b]|]; [congruence|]. destruct (ceqb _ _); congruence. }
  destruct s as [|c' s]; [cbn in *; lia|]. cbn [hex_decode]. assert (HV : hex_val c = None); [|rewrite HV; reflexivity].
  clear - H0. revert H0. destruct c as [[] [] [] [] [] [] [] []]; vm_compute; intro Q; try reflexivity; discriminate.
Qed.
Lemma nip19_hrp s prefix c : nip19_decode s = Ok (prefix, c) -> exists d, decode s = Ok (prefix, d).
Proof.
  unfold nip19_decode. destruct (decode s) as [[p bits5]| |]; try discriminate. cbn [obind]. destruct (convert_bits bits5 5 8 false) as [nums| |]; try discriminate. cbn [obind]. intro H. exists bits5. f_equal. f_equal.
  destruct (seqb p (B "npub") || seqb p (B "nsec") || seqb p (B "note")).
  - destruct (Nat.eqb _ 32); [|discriminate]. cbn [negb] in H. congruence.
  - destruct (seqb p (B "nprofile")); [destruct (tlv_loop _ profile_entry _ _) as [q| |]; cbn [obind] in H; try discriminate; destruct (empty _); congruence|].
    destruct (seqb p (B "nevent")); [destruct (tlv_loop _ event_entry _ _) as [q| |]; cbn [obind] in H; try discriminate; destruct (empty _); congruence|].
    destruct (seqb p (B "naddr")); [|discriminate]. destruct (tlv_loop _ entity_entry _ _) as [q| |]; cbn [obind] in H; try discriminate. destruct (_ || _); congruence.
Qed.
Lemma starts_n p : In p [B "npub"; B "nprofile"; B "note"; B "nevent"] -> exists r, p = "n"%char :: r.
Proof. intros [<-|[<-|[<-|[<-|[]]]]]; eexists; reflexivity. Qed.
(** Every valid npub and nprofile gives its pointer, 64 hexadecimal digits the key itself. *)
Theorem C81_profile_inputs nip05 s :
  (is_hex32 s -> input_to_profile nip05 s = Ok (Some (mkProfile s None))) /\
  (forall pk, nip19_decode s = Ok (B "npub", KHex pk) -> input_to_profile nip05 s = Ok (Some (mkProfile pk None))) /\
  (forall p, nip19_decode s = Ok (B "nprofile", KPtr (PProfile p)) -> input_to_profile nip05 s = Ok (Some p)).
Proof.
  split; [|split].
  - intros H. destruct (hex32_bytes s H) as (b & D & _ & _). destruct H as [L _]. unfold input_to_profile. rewrite L, D. reflexivity.
  - intros pk H. destruct (nip19_hrp _ _ _ H) as [d D]. apply not_hex in D; [|apply starts_n; cbn; auto]. unfold input_to_profile. rewrite D, andb_false_r, (raw_of_nip19 _ _ _ H). reflexivity.
  - intros p H. destruct (nip19_hrp _ _ _ H) as [d D]. apply not_hex in D; [|apply starts_n; cbn; auto]. unfold input_to_profile. rewrite D, andb_false_r, (raw_of_nip19 _ _ _ H). reflexivity.
Qed.
Print Assumptions C81_profile_inputs.
Theorem C81_event_inputs s :
  (is_hex32 s -> input_to_event s = Ok (Some (mkEventPtr s None [] 0))) /\
  (forall id, nip19_decode s = Ok (B "note", KHex id) -> input_to_event s = Ok (Some (mkEventPtr id None [] 0))) /\
  (forall p, nip19_decode s = Ok (B "nevent", KPtr (PEvent p)) -> input_to_event s = Ok (Some p)).
Proof.
  split; [|split].
  - intros H. destruct (hex32_bytes s H) as (b & D & _ & _). destruct H as [L _]. unfold input_to_event. rewrite L, D. reflexivity.
  - intros pk H. destruct (nip19_hrp _ _ _ H) as [d D]. apply not_hex in D; [|apply starts_n; cbn; auto]. unfold input_to_event. rewrite D, andb_false_r, (raw_of_nip19 _ _ _ H). reflexivity.
  - intros p H. destruct (nip19_hrp _ _ _ H) as [d D]. apply not_hex in D; [|apply starts_n; cbn; auto]. unfold input_to_event. rewrite D, andb_false_r, (raw_of_nip19 _ _ _ H). reflexivity.
Qed.
Print Assumptions C81_event_inputs.
Example C81_example : input_to_profile (fun _ => None) (B "npub10elfcs4fr0l0r8af98jlmgdh9c8tcxjvz9qkw038js35mp4dma8qzvjptg") = Ok (Some (mkProfile key1 None)) /\ input_to_event key1 = Ok (Some (mkEventPtr key1 None [] 0)).
Proof. split; vm_compute; reflexivity. Qed.
(** An npub of the wrong length crashes InputToProfile: the error of Decode is ignored. *)
Theorem C81_profile_crash_refuted : exists s, input_to_profile (fun _ => None) s = Panic.
Proof. exists (match to_code (B "npub") (repeat (byte_of 7) 31) with Ok t => t | _ => [] end). vm_compute. reflexivity. Qed.
Print Assumptions C81_profile_crash_refuted.
(** An nprofile without a key gives a pointer to nobody instead of nil. *)
Theorem C81_nobody_refuted : exists s p, nip19_decode s = Err /\ input_to_profile (fun _ => None) s = Ok (Some p) /\ pp_pubkey p = [].
Proof. exists (match to_code (B "nprofile") (write_tlv TLVRelay (B "wss://x")) with Ok t => t | _ => [] end). eexists. split; [vm_compute; reflexivity|]. split; vm_compute; reflexivity. Qed.
Print Assumptions C81_nobody_refuted.

(** ** C82. Fetching a list. *)
Section Fetch.
Context {I : Type} (value : I -> str) (parse : tag -> option I).
Notation gl := (fetch_list value parse).
Definition parsed_list (e : event) : option event * list I := (Some e, firsts value (parsed parse (ev_tags e))).
Lemma list_of_spec e : list_of value parse e = parsed_list e. Proof. unfold list_of, items_of, parsed_list. rewrite C63_items. reflexivity. Qed.
(** The network is asked when nothing is cached and either nothing is stored or the last attempt is missing or too old. *)
(** Profiles are refreshed after a week, follow lists after a day, other lists after three days. *)
Definition day : Z := 86400.
Definition age_limit (kind limit : Z) : Prop := (kind = 0%Z /\ limit = (7 * day)%Z) \/ (kind = 3%Z /\ limit = day) \/ (kind <> 0%Z /\ kind <> 3%Z /\ limit = (3 * day)%Z).
Lemma age_limit_days kind limit : age_limit kind limit <-> limit = (refresh_days kind * 86400)%Z.
Proof. unfold age_limit, refresh_days, day. destruct (Z.eqb_spec kind 0) as [->|]; [|destruct (Z.eqb_spec kind 3) as [->|]]; lia. Qed.
Definition due (kind now : Z) (last : option str) : Prop := match last with None => True | Some b => exists t limit, decode_ts b = Ok t /\ age_limit kind limit /\ (limit < now - t)%Z end.
Theorem C82_list kind now cached stored last net r : gl kind now cached stored last net = Ok r ->
  (forall v, cached = Some v -> fd_list r = v /\ fd_asked r = false) /\
  (cached = None -> (fd_asked r = true <-> stored = [] \/ due kind now last)) /\
  (cached = None -> forall e rest, stored = e :: rest -> fd_list r = match net with Some n => if fd_asked r && (ev_created_at e <? ev_created_at n)%Z then parsed_list n else parsed_list e | None => parsed_list e end) /\
  (cached = None -> stored = [] -> fd_list r = match net with Some n => parsed_list n | None => (None, []) end).
Proof.
  unfold fetch_list. destruct cached as [v|].
  { intro H. injection H as <-. cbn. split; [intros w Q; injection Q as <-; auto|]. repeat split; intros; discriminate. }
  destruct stored as [|e rest].
  { intro H. split; [discriminate|]. destruct net as [n|]; injection H as <-; cbn [fd_list fd_asked].
    - split; [tauto|]. split; [discriminate|]. intros _ _. apply list_of_spec.
    - split; [tauto|]. split; [discriminate|]. reflexivity. }
  assert (ST : forall b, stale kind now last = Ok b -> b = true <-> due kind now last).
  { unfold stale, due. destruct last as [x|]; [|intros b Q; injection Q as <-; tauto]. destruct (decode_ts x) as [t| |] eqn:D; try discriminate. cbn [obind]. intros b Q. injection Q as <-. rewrite Z.gtb_ltb, Z.ltb_lt. split; [intro L; exists t, (refresh_days kind * 86400)%Z; split; [reflexivity|]; split; [apply age_limit_days; reflexivity|lia]|]. intros (t' & lim & E & A & L). injection E as <-. apply age_limit_days in A. lia. }
  destruct (stale kind now last) as [b| |]; try discriminate. specialize (ST b eq_refl). cbn [obind]. intro H. split; [discriminate|]. destruct b; injection H as <-; cbn [fd_list fd_asked andb].
  - split; [intros _; split; [intros _; right; tauto|reflexivity]|]. split; [|discriminate]. intros _ e' rest' Q. injection Q as <- <-. destruct net as [n|]; [|apply list_of_spec]. rewrite Z.gtb_ltb. destruct (_ <? _)%Z; apply list_of_spec.
  - split; [intros _; split; [discriminate|]; intros [Q|Q]; [discriminate|apply ST in Q; discriminate]|]. split; [|discriminate]. intros _ e' rest' Q. injection Q as <- <-. destruct net; apply list_of_spec.
Qed.
(** What is recorded as the last attempt reads back as the clock, before 2106, so the network is not asked again at once. *)
Theorem C82_attempt_recorded kind now cached stored last net r b : gl kind now cached stored last net = Ok r -> fd_attempt r = Some b -> (0 <= now < 2 ^ 32)%Z -> fd_asked r = true /\ decode_ts b = Ok now.
Proof.
  unfold fetch_list. intros H A R. assert (D : decode_ts (encode_ts now) = Ok now).
  { unfold encode_ts, put_be32, decode_ts, be32. rewrite Z.mod_small by lia. assert (Q : (Z.to_N now < 4294967296)%N) by lia. remember (Z.to_N now) as n eqn:EN. replace now with (Z.of_N n) by lia.
    rewrite !val_byte_of by (try apply N.mod_lt; try lia; apply N.div_lt_upper_bound; lia). f_equal. f_equal.
    pose proof (N.div_mod n 256 ltac:(lia)). pose proof (N.div_mod (n / 256) 256 ltac:(lia)). pose proof (N.div_mod (n / 65536) 256 ltac:(lia)). rewrite !N.div_div in * by lia. change (256 * 256)%N with 65536%N in *. change (65536 * 256)%N with 16777216%N in *. lia. }
  destruct cached as [v|]; [injection H as <-; discriminate|]. destruct stored as [|e rest].
  - destruct net as [n|]; injection H as <-; cbn in *; [|discriminate]. injection A as <-. auto.
  - destruct (stale kind now last) as [[]| |]; try discriminate; cbn [obind] in H; injection H as <-; cbn in *; [|discriminate]. injection A as <-. auto.
Qed.
(** Sets: as long as the network answers or need not be asked. Missing: the crash below. *)
Theorem C82_sets_partial kind now cached stored last net r : fetch_sets value parse kind now cached stored last net = Ok r ->
  (forall v, cached = Some v -> fd_list r = v) /\
  (cached = None -> fd_list r = sets_of value parse (if fd_asked r then match net with Some n => n | None => [] end else stored)).
Proof.
  unfold fetch_sets. destruct cached as [v|]; [intro H; injection H as <-; split; [intros w Q; injection Q as <-; reflexivity|discriminate]|]. intro H. split; [discriminate|]. intros _.
  destruct stored as [|e rest].
  - destruct net as [n|]; injection H as <-; reflexivity.
  - destruct (stale kind now last) as [[]| |]; try discriminate; cbn [obind] in H; [destruct net as [n|]; [|discriminate]|]; injection H as <-; reflexivity.
Qed.
(** Stored sets, due for a refresh, and the network silent: nil is dereferenced. *)
Theorem C82_sets_crash kind now e rest last : due kind now last -> fetch_sets value parse kind now None (e :: rest) last None = Panic.
Proof.
  unfold due, fetch_sets, stale. destruct last as [b|]; [|reflexivity]. intros (t & lim & D & A & L). apply age_limit_days in A. rewrite D. cbn [obind]. assert (G : (now - t >? refresh_days kind * 24 * 60 * 60)%Z = true) by (rewrite Z.gtb_ltb; apply Z.ltb_lt; lia). rewrite G. reflexivity.
Qed.
(** The caller is told whether the answer came from here: exactly when something was cached or stored. *)
Theorem C82_list_told kind now cached stored last net r : gl kind now cached stored last net = Ok r -> fd_internal r = true <-> cached <> None \/ stored <> [].
Proof.
  unfold fetch_list. destruct cached as [v|]; [intro H; injection H as <-; cbn; split; [left; discriminate|reflexivity]|].
  destruct stored as [|e rest]; intro H.
  - assert (F : fd_internal r = false) by (destruct net; injection H as <-; reflexivity). rewrite F. split; [discriminate|]. intros [Q|Q]; congruence.
  - assert (F : fd_internal r = true) by (destruct (stale kind now last) as [[]| |]; try discriminate; injection H as <-; reflexivity). rewrite F. split; [right; discriminate|reflexivity].
Qed.
Theorem C82_sets_told kind now cached stored last net r : fetch_sets value parse kind now cached stored last net = Ok r -> fd_internal r = true <-> cached <> None \/ stored <> [].
Proof.
  unfold fetch_sets. destruct cached as [v|]; [intro H; injection H as <-; cbn; split; [left; discriminate|reflexivity]|].
  destruct stored as [|e rest]; intro H.
  - assert (F : fd_internal r = false) by (destruct net; injection H as <-; reflexivity). rewrite F. split; [discriminate|]. intros [Q|Q]; congruence.
  - assert (F : fd_internal r = true) by (destruct (stale kind now last) as [[]| |]; try discriminate; cbn [obind] in H; [destruct net; [|discriminate]|]; injection H as <-; reflexivity). rewrite F. split; [right; discriminate|reflexivity].
Qed.
(** Sets are asked for at the same times as lists, and the attempt is written down when the network answered. *)
Theorem C82_sets_asked kind now cached stored last net r : fetch_sets value parse kind now cached stored last net = Ok r ->
  (fd_asked r = true <-> cached = None /\ (stored = [] \/ due kind now last)) /\
  fd_attempt r = (if fd_asked r then match net with Some _ => Some (put_be32 now) | None => None end else None).
Proof.
  unfold fetch_sets. destruct cached as [v|]; [intro H; injection H as <-; cbn; split; [|reflexivity]; split; [discriminate|]; intros [Q _]; discriminate|].
  destruct stored as [|e rest]; intro H.
  - split; [split; [intros _; split; [reflexivity|left; reflexivity]|intros _; destruct net; injection H as <-; reflexivity]|destruct net; injection H as <-; reflexivity].
  - assert (ST : forall b, stale kind now last = Ok b -> b = true <-> due kind now last).
    { unfold stale, due. destruct last as [x|]; [|intros b Q; injection Q as <-; tauto]. destruct (decode_ts x) as [t| |] eqn:D; try discriminate. cbn [obind]. intros b Q. injection Q as <-. rewrite Z.gtb_ltb, Z.ltb_lt. split; [intro L; exists t, (refresh_days kind * 86400)%Z; split; [reflexivity|]; split; [apply age_limit_days; reflexivity|lia]|]. intros (t' & lim & E & A & L). injection E as <-. apply age_limit_days in A. lia. }
    destruct (stale kind now last) as [b| |]; try discriminate. specialize (ST b eq_refl). cbn [obind] in H. destruct b.
    + destruct net as [n|]; [|discriminate]. injection H as <-. cbn [fd_asked fd_attempt]. split; [|reflexivity]. split; [intros _; split; [reflexivity|right; tauto]|reflexivity].
    + injection H as <-. cbn [fd_asked fd_attempt]. split; [|reflexivity]. split; [discriminate|]. intros [_ [Q|Q]]; [discriminate|apply ST in Q; discriminate].
Qed.
End Fetch.
Print Assumptions C82_list. Print Assumptions C82_attempt_recorded. Print Assumptions C82_sets_partial. Print Assumptions C82_sets_crash. Print Assumptions C82_list_told. Print Assumptions C82_sets_told. Print Assumptions C82_sets_asked.
Example C82_example : exists r, fetch_list (fun x => x) parse_topic 10015 1000000 None [ev0 "1" "alice" 5 ""] (Some (put_be32 1000)) (Some (mkEvent (B "2") (B "alice") 6 10015 [[B "t"; B "go"]] [] [])) = Ok r /\ fd_asked r = true /\ snd (fd_list r) = [B "go"].
Proof. eexists. split; [vm_compute; reflexivity|]. split; reflexivity. Qed.
Example C82_sets_example : exists r, fetch_sets (fun x => x) parse_topic 30015 1000000 None [] None (Some [ev0 "1" "alice" 5 "x"]) = Ok r /\ fd_asked r = true /\ fd_internal r = false.
Proof. eexists. split; [vm_compute; reflexivity|]. split; reflexivity. Qed.
Theorem C82_sets_refuted : exists stored, stored <> [] /\ fetch_sets (fun x => x) parse_topic 30015 1000000 None stored None None = Panic.
Proof. exists [ev0 "1" "alice" 5 "x"]. split; [discriminate|]. reflexivity. Qed.
Print Assumptions C82_sets_refuted.

(** ** C83. Choosing relays. *)
Theorem C83_at_most_three relays next : length relays <= 3 -> NoDup relays -> length (determine_relays relays next) <= 3 /\ NoDup (determine_relays relays next) /\ firstn (length relays) (determine_relays relays next) = relays.
Proof.
  unfold determine_relays. intros L N. assert (G : forall n next r, NoDup r -> length (fill_relays n next r) <= length r + n /\ NoDup (fill_relays n next r) /\ firstn (length r) (fill_relays n next r) = r).
  { clear. induction n as [|n IH]; intros next r N; [cbn [fill_relays]; rewrite firstn_all; split; [lia|auto]|]. destruct next as [|x next]; cbn [fill_relays]; [rewrite firstn_all; split; [lia|auto]|]. destruct (smem x r) eqn:M.
    - destruct (IH next r N) as (A & B & C). split; [lia|auto].
    - assert (NX : NoDup (r ++ [x])). { apply (NoDup_Add (a := x) (l := r)); [pose proof (Add_app x r []) as A; rewrite app_nil_r in A; exact A|]. split; [exact N|]. rewrite <- smem_In. congruence. }
      destruct (IH next (r ++ [x]) NX) as (A & B & C). rewrite app_length in *. cbn [length] in *. split; [lia|]. split; [exact B|]. set (y := fill_relays n next (r ++ [x])) in *. apply (f_equal (firstn (length r))) in C. rewrite firstn_firstn, Nat.min_l in C by lia. rewrite C, firstn_app, Nat.sub_diag, firstn_all. apply app_nil_r. }
  destruct (G (3 - length relays) next relays N) as (A & B & C). split; [lia|auto].
Qed.
Print Assumptions C83_at_most_three.
(** A stream goes round: in any run of as many steps as there are URLs each is given once (before the counter overflows). *)
Lemma stream_next_ok urls serial : urls <> [] -> (0 <= serial < 2 ^ 63 - 1)%Z -> exists u, stream_next urls serial = Ok (u, (serial + 1)%Z) /\ nth_error urls (Z.to_nat ((serial + 1) mod Z.of_nat (length urls))) = Some u.
Proof.
  intros N R. unfold stream_next. destruct (Z.eqb_spec serial (2 ^ 63 - 1)); [lia|]. assert (P : (0 < Z.of_nat (length urls))%Z) by (destruct urls; [contradiction|cbn; lia]). rewrite Z.rem_mod_nonneg by lia. pose proof (Z.mod_pos_bound (serial + 1) _ P) as B.
  destruct (Z.ltb_spec ((serial + 1) mod Z.of_nat (length urls)) 0); [lia|]. destruct (nth_error urls (Z.to_nat ((serial + 1) mod Z.of_nat (length urls)))) as [u|] eqn:E; [|apply nth_error_None in E; lia]. exists u. split; [destruct urls; [contradiction|]|]; reflexivity.
Qed.
Theorem C83_rotation urls serial n : urls <> [] -> (0 <= serial)%Z -> (serial + Z.of_nat n < 2 ^ 63)%Z ->
  exists l, stream_run n urls serial = Ok l /\ length l = n /\ forall i, i < n -> nth_error l i = nth_error urls (Z.to_nat ((serial + 1 + Z.of_nat i) mod Z.of_nat (length urls))).
Proof.
  intros N. revert serial. induction n as [|n IH]; intros serial R1 R2; [exists []; split; [reflexivity|]; split; [reflexivity|lia]|]. destruct (stream_next_ok urls serial N) as (u & E & U); [lia|]. destruct (IH (serial + 1)%Z) as (l & L1 & L2 & L3); [lia|lia|]. exists (u :: l). cbn [stream_run]. rewrite E. cbn [obind]. rewrite L1. cbn [obind]. split; [reflexivity|]. split; [cbn; lia|].
  intros [|i] H; cbn [nth_error].
  - rewrite <- U. f_equal. f_equal. f_equal. lia.
  - rewrite L3 by lia. f_equal. f_equal. f_equal. lia.
Qed.
Print Assumptions C83_rotation.
Example C83_example : stream_run 4 [B "a"; B "b"; B "c"] 7 = Ok [B "c"; B "a"; B "b"; B "c"] /\ determine_relays [B "a"] [B "b"; B "a"] = [B "a"; B "b"].
Proof. split; vm_compute; reflexivity. Qed.
(** The counter starts anywhere below 2^63 and wraps to a negative index. *)
Theorem C83_overflow_refuted : exists urls serial, urls <> [] /\ (0 <= serial < 2 ^ 63)%Z /\ stream_next urls serial = Panic.
Proof. exists [B "a"; B "b"; B "c"], (2 ^ 63 - 1)%Z. split; [discriminate|]. split; [lia|]. vm_compute. reflexivity. Qed.
Print Assumptions C83_overflow_refuted.
(** Inbox relays: the URLs marked for reading, in the order of the list; a list that is empty or has more than ten entries is not used at all. *)
Theorem C83_inbox l :
  (l = [] \/ 10 < length l -> inbox_relays l = [B "wss://relay.damus.io"; B "wss://nos.lol"]) /\
  (1 <= length l <= 10 -> inbox_relays l = map ri_url (filter ri_inbox l) /\ length (inbox_relays l) <= 10).
Proof.
  unfold inbox_relays. split.
  - intros [-> | H]; [reflexivity|]. apply Nat.ltb_lt in H. rewrite H, orb_true_r. reflexivity.
  - intro H. destruct (Nat.eqb_spec (length l) 0); [lia|]. destruct (Nat.ltb_spec 10 (length l)); [lia|]. cbn [orb]. split; [reflexivity|].
    rewrite map_length. clear - H. assert (L : length (filter ri_inbox l) <= length l); [|lia]. clear. induction l as [|x l IH]; cbn [filter length]; [lia|]. destruct (ri_inbox x); cbn [length]; lia.
Qed.
Print Assumptions C83_inbox.
Example C83_inbox_example : inbox_relays [mkRelayItem (B "a") true false; mkRelayItem (B "b") false true] = [B "a"] /\
  inbox_relays (repeat (mkRelayItem (B "a") true true) 11) = [B "wss://relay.damus.io"; B "wss://nos.lol"].
Proof. split; reflexivity. Qed.
(** Outbox relays: the cache only answers for the same key and for two minutes ... *)
Theorem C83_outbox_own pk n now entry top6 : fst (fetch_outbox pk n now entry top6) = (match entry with Some (p, rs, t) => if seqb p pk && (now <? t + 120)%Z then rs else match top6 with [] => [B "wss://relay.damus.io"; B "wss://nos.lol"] | _ => firstn n top6 end | None => match top6 with [] => [B "wss://relay.damus.io"; B "wss://nos.lol"] | _ => firstn n top6 end end) /\
  (forall p rs t, snd (fetch_outbox pk n now entry top6) = Some (p, rs, t) -> entry = Some (p, rs, t) \/ (p = pk /\ rs = top6 /\ t = now /\ top6 <> [])).
Proof.
  unfold fetch_outbox. destruct entry as [[[p rs] t]|]; [destruct (seqb p pk && (now <? t + 120)%Z)|]; destruct top6 as [|x top6]; (split; [reflexivity|]); cbn [snd]; intros p' rs' t' H; auto; right; injection H as <- <- <-; repeat split; discriminate.
Qed.
Print Assumptions C83_outbox_own.
(** ... but then ignores how many were asked for. *)
Theorem C83_outbox_limit_refuted : exists pk n now top6 entry, entry = snd (fetch_outbox pk n now None top6) /\ length (fst (fetch_outbox pk n now None top6)) <= n /\ ~ length (fst (fetch_outbox pk n (now + 1) entry top6)) <= n.
Proof. exists (B "pk"), 1, 100%Z, [B "a"; B "b"; B "c"]. eexists. split; [reflexivity|]. split; cbn; lia. Qed.
Print Assumptions C83_outbox_limit_refuted.

(** ** C84. Notes: exactly the references not mentioned by a "b" (profile) or "q" (event, address) tag of the original note get a tag, in order. *)
Definition mentions (name value : str) (t : tag) : bool := match t with n :: v :: _ => seqb n name && seqb v value | _ => false end.
Definition already (tags : list tag) (p : pointer) : bool :=
  match p with
  | PProfile v => existsb (mentions (B "b") (pp_pubkey v)) tags
  | PEvent v => existsb (mentions (B "q") (ep_id v)) tags
  | PEntity v => existsb (mentions (B "q") (entity_ref v)) tags
  end.
Lemma find_mentions tags name v : (match find_with_value tags name v with None => false | Some _ => true end) = existsb (mentions name v) tags.
Proof. induction tags as [|[|a [|b r]] l IH]; cbn [find_with_value existsb mentions]; auto. rewrite (andb_comm (seqb b v)). destruct (seqb a name && seqb b v); [reflexivity|exact IH]. Qed.
Lemma note_step_spec tags p : note_step tags p = if already tags p then tags else tags ++ [pointer_tag p].
Proof. unfold note_step, already. destruct p as [v|v|v]; rewrite <- find_mentions; destruct (find_with_value _ _ _); reflexivity. Qed.
Lemma already_added tags q p : already (tags ++ [pointer_tag q]) p = already tags p.
Proof.
  assert (M : forall n v, n = B "b" \/ n = B "q" -> mentions n v (pointer_tag q) = false).
  { intros n v [->| ->]; destruct q as [w|w|w]; unfold pointer_tag, profile_as_tag, event_ptr_as_tag, entity_as_tag; repeat match goal with |- context [match ?x with _ => _ end] => destruct x end; reflexivity. }
  unfold already. destruct p as [v|v|v]; rewrite existsb_app; cbn [existsb]; rewrite M by auto; apply orb_false_r.
Qed.
Theorem C84_what_it_does refs tags : prepare_note refs tags = tags ++ map pointer_tag (filter (fun p => negb (already tags p)) refs).
Proof.
  unfold prepare_note. revert tags. induction refs as [|p refs IH]; intro tags; cbn [fold_left filter]; [cbn; rewrite app_nil_r; reflexivity|]. rewrite note_step_spec. destruct (already tags p) eqn:A; cbn [negb]; [apply IH|].
  rewrite IH, <- app_assoc. cbn [map app]. do 3 f_equal. apply filter_ext. intro q. rewrite already_added. reflexivity.
Qed.
Print Assumptions C84_what_it_does.
(** So every reference ends up in the tags ... *)
Theorem C84_all_tagged refs tags p : In p refs -> already tags p = true \/ In (pointer_tag p) (prepare_note refs tags).
Proof. intro H. rewrite C84_what_it_does. destruct (already tags p) eqn:A; [auto|]. right. apply in_or_app. right. apply in_map, filter_In. rewrite A. auto. Qed.
Print Assumptions C84_all_tagged.
Example C84_example : prepare_note [PProfile (mkProfile (B "a") None); PEvent (mkEventPtr (B "e") None [] 1)] [[B "q"; B "e"]] = [[B "q"; B "e"]; [B "p"; B "a"]].
Proof. vm_compute. reflexivity. Qed.
(** ... but the check looks for other tags than those it adds: a second mention is tagged again, and so is everything when the note is prepared twice. *)
Theorem C84_repeated_refuted : exists p, prepare_note [p; p] [] = [pointer_tag p; pointer_tag p] /\ prepare_note [p] (prepare_note [p] []) <> prepare_note [p] [].
Proof. exists (PProfile (mkProfile key1 None)). split; [reflexivity|]. vm_compute. discriminate. Qed.
Print Assumptions C84_repeated_refuted.
