(** C121: how a System is put together. C122: its lists, fetched by several goroutines at once. *)
From Verif Require Import Base Machine EventModel TagsModel FilterModel Bech32Model Nip19Model StoreModel StoreProofs HintsProofs ListsModel ProfileModel SystemModel Props_Lists Props_Sdk Props_Profile.
Import ListNotations.

(** ** C121. Every part of a System is what the last of its modifiers gave, or else the documented default. *)
Definition picks {X} (pick : modifier -> option X) (mods : list modifier) : list X := flat_map (fun m => match pick m with Some x => [x] | None => [] end) mods.
Definition last_pick {X} (pick : modifier -> option X) (mods : list modifier) (default : X) : X := last (picks pick mods) default.
Definition stream_dec (a b : stream) : {a = b} + {a <> b}. Proof. decide equality. Defined.
Lemma stream_eqb_spec a b : stream_eqb a b = if stream_dec a b then true else false. Proof. destruct a, b; reflexivity. Qed.
Definition pick_urls (s : stream) (m : modifier) : option (list str) := match m with WithRelays t u => if stream_dec s t then Some u else None | _ => None end.
Definition pick_kv (m : modifier) : option (option nat) := match m with WithKVStore k => Some k | _ => None end.
Definition pick_hints (m : modifier) : option (option nat) := match m with WithHintsDB k => Some k | _ => None end.
Definition pick_store (m : modifier) : option (option nat) := match m with WithStore k => Some k | _ => None end.
Definition pick_relay_cache (m : modifier) : option (option nat) := match m with WithRelayListCache k => Some k | _ => None end.
Definition pick_follow_cache (m : modifier) : option (option nat) := match m with WithFollowListCache k => Some k | _ => None end.
Definition pick_metadata_cache (m : modifier) : option (option nat) := match m with WithMetadataCache k => Some k | _ => None end.
Lemma picks_app {X} (pick : modifier -> option X) a b : picks pick (a ++ b) = picks pick a ++ picks pick b. Proof. unfold picks. apply flat_map_app. Qed.
Lemma last_snoc {X} (l : list X) x d : last (l ++ [x]) d = x. Proof. apply last_last. Qed.
Lemma last_pick_snoc {X} (pick : modifier -> option X) mods m d : last_pick pick (mods ++ [m]) d = match pick m with Some x => x | None => last_pick pick mods d end.
Proof. unfold last_pick. rewrite picks_app. unfold picks at 2. cbn [flat_map]. rewrite app_nil_r. destruct (pick m); [apply last_snoc|rewrite app_nil_r; reflexivity]. Qed.
Definition built (mods : list modifier) : system := fold_left apply_mod mods bare_system.
Lemma built_snoc mods m : built (mods ++ [m]) = apply_mod (built mods) m. Proof. unfold built. rewrite fold_left_app. reflexivity. Qed.
Lemma new_built mods : new_system mods = finish_system (built mods). Proof. reflexivity. Qed.
Lemma finish_fields y : sy_urls (finish_system y) = sy_urls y /\ sy_kv (finish_system y) = sy_kv y /\ sy_hints (finish_system y) = sy_hints y /\ sy_follow_cache (finish_system y) = sy_follow_cache y /\ sy_kv_closed (finish_system y) = sy_kv_closed y /\ sy_pool_open (finish_system y) = sy_pool_open y.
Proof. unfold finish_system. destruct (sy_store y); cbn; repeat split. Qed.

(** The relays: the documented ones or the last list given for that use. *)
Definition documented (s : stream) : list str :=
  map B match s with
  | SRelayList => ["wss://purplepag.es"; "wss://user.kindpag.es"; "wss://relay.nos.social"]
  | SFollowList => ["wss://purplepag.es"; "wss://user.kindpag.es"; "wss://relay.nos.social"]
  | SMetadata => ["wss://purplepag.es"; "wss://user.kindpag.es"; "wss://relay.nos.social"]
  | SFallback => ["wss://offchain.pub"; "wss://no.str.cr"; "wss://relay.damus.io"; "wss://nostr.mom"; "wss://nos.lol"; "wss://relay.mostr.pub"; "wss://nostr.land"]
  | SJustID => ["wss://cache2.primal.net/v1"; "wss://relay.nostr.band"]
  | SUserSearch => ["wss://search.nos.today"; "wss://nostr.wine"; "wss://relay.nostr.band"]
  | SNoteSearch => ["wss://nostr.wine"; "wss://relay.nostr.band"; "wss://search.nos.today"]
  end%string.
Theorem C121_relays mods s : sy_urls (new_system mods) s = last_pick (pick_urls s) mods (documented s).
Proof.
  rewrite new_built. destruct (finish_fields (built mods)) as (-> & _). induction mods as [|m mods IH] using rev_ind; [destruct s; reflexivity|].
  rewrite built_snoc, last_pick_snoc. destruct m; cbn [pick_urls apply_mod sy_urls]; try exact IH. rewrite stream_eqb_spec. destruct (stream_dec s s0); [reflexivity|exact IH].
Qed.
(** The stores and caches: what was given last, nil included; but the two caches and the event store are never nil. *)
Theorem C121_parts mods : let y := new_system mods in
  sy_kv y = match picks pick_kv mods with [] => Some KVMemory | _ => option_map KVGiven (last_pick pick_kv mods None) end /\
  sy_hints y = match picks pick_hints mods with [] => Some HintsMemory | _ => option_map HintsGiven (last_pick pick_hints mods None) end /\
  sy_follow_cache y = option_map CacheGiven (last_pick pick_follow_cache mods None) /\
  sy_store y = Some (match last_pick pick_store mods None with Some n => StoreGiven n | None => NullStore end) /\
  sy_relay_cache y = Some (match last_pick pick_relay_cache mods None with Some n => CacheGiven n | None => CacheMemory 8000 end) /\
  sy_metadata_cache y = Some (match last_pick pick_metadata_cache mods None with Some n => CacheGiven n | None => CacheMemory 8000 end) /\
  sy_pool_open y = true.
Proof.
  intro y. subst y. rewrite new_built.
  assert (K : sy_kv (built mods) = match picks pick_kv mods with [] => Some KVMemory | _ => option_map KVGiven (last_pick pick_kv mods None) end /\
              sy_hints (built mods) = match picks pick_hints mods with [] => Some HintsMemory | _ => option_map HintsGiven (last_pick pick_hints mods None) end /\
              sy_follow_cache (built mods) = option_map CacheGiven (last_pick pick_follow_cache mods None) /\
              sy_store (built mods) = option_map StoreGiven (last_pick pick_store mods None) /\
              sy_relay_cache (built mods) = option_map CacheGiven (last_pick pick_relay_cache mods None) /\
              sy_metadata_cache (built mods) = option_map CacheGiven (last_pick pick_metadata_cache mods None) /\ sy_pool_open (built mods) = true).
  { induction mods as [|m mods IH] using rev_ind; [repeat split|]. rewrite built_snoc, !picks_app, !last_pick_snoc. destruct IH as (I1 & I2 & I3 & I4 & I5 & I6 & I7).
    assert (SN : forall X Y (l : list X) x (a b : Y), match l ++ [x] with [] => a | _ => b end = b) by (intros X Y l x a b; destruct l; reflexivity).
    destruct m; cbn [apply_mod sy_kv sy_hints sy_follow_cache sy_store sy_relay_cache sy_metadata_cache sy_pool_open pick_kv pick_hints pick_store pick_relay_cache pick_follow_cache pick_metadata_cache]; unfold picks at 2 4; cbn [flat_map pick_kv pick_hints]; rewrite ?app_nil_r, ?SN; repeat split; assumption. }
  destruct K as (K1 & K2 & K3 & K4 & K5 & K6 & K7). unfold finish_system. rewrite K4, K5, K6. destruct (last_pick pick_store mods None); destruct (last_pick pick_relay_cache mods None); destruct (last_pick pick_metadata_cache mods None); cbn; repeat split; assumption.
Qed.
(** The key-value stores closed on the way: the first and every one given, but for the last of them, nils aside. The caller's event stores must be
    initialised by the caller: Init is called on the one made here alone. *)
Definition kv_history (mods : list modifier) : list (option kvref) := Some KVMemory :: map (option_map KVGiven) (picks pick_kv mods).
Definition somes {X} (l : list (option X)) : list X := flat_map (fun o => match o with Some x => [x] | None => [] end) l.
Lemma history_snoc mods m : kv_history (mods ++ [m]) = kv_history mods ++ match m with WithKVStore k => [option_map KVGiven k] | _ => [] end.
Proof. unfold kv_history. rewrite picks_app, map_app. cbn [app]. f_equal. f_equal. destruct m; reflexivity. Qed.
Lemma history_last mods : last (kv_history mods) None = sy_kv (built mods).
Proof. induction mods as [|m mods IH] using rev_ind; [reflexivity|]. rewrite history_snoc, built_snoc. destruct m; rewrite ?app_nil_r, ?last_snoc; try exact IH; reflexivity. Qed.
Lemma history_split mods : kv_history mods = removelast (kv_history mods) ++ [last (kv_history mods) None]. Proof. apply app_removelast_last. discriminate. Qed.
Lemma closed_history mods : sy_kv_closed (built mods) = somes (removelast (kv_history mods)).
Proof.
  induction mods as [|m mods IH] using rev_ind; [reflexivity|]. rewrite history_snoc, built_snoc. destruct m; rewrite ?app_nil_r; try exact IH. rewrite removelast_last. cbn [apply_mod sy_kv_closed]. rewrite IH, <- history_last.
  rewrite (history_split mods) at 3. unfold somes. rewrite flat_map_app. cbn [flat_map]. rewrite app_nil_r. reflexivity.
Qed.
Theorem C121_closed mods : sy_kv_closed (new_system mods) = somes (removelast (kv_history mods)) /\ sy_store_inited (new_system mods) = match last_pick pick_store mods None with Some _ => [] | None => [NullStore] end.
Proof.
  split; [rewrite new_built; destruct (finish_fields (built mods)) as (_ & _ & _ & _ & -> & _); apply closed_history|].
  assert (N : sy_store_inited (built mods) = []) by (induction mods as [|m mods IH] using rev_ind; [reflexivity|]; rewrite built_snoc; destruct m; exact IH).
  assert (K4 : sy_store (built mods) = option_map StoreGiven (last_pick pick_store mods None)).
  { clear. induction mods as [|m mods IH] using rev_ind; [reflexivity|]. rewrite built_snoc, last_pick_snoc. destruct m; try exact IH; reflexivity. }
  rewrite new_built. unfold finish_system. rewrite K4. destruct (last_pick pick_store mods None); cbn; rewrite N; reflexivity.
Qed.
(** If no store is given twice, the one in use is open, and after Close every store there ever was has been closed exactly once. *)
Theorem C121_in_use_open mods : NoDup (somes (picks pick_kv mods)) ->
  let y := new_system mods in (forall k, sy_kv y = Some k -> ~ In k (sy_kv_closed y)) /\
  NoDup (sy_kv_closed (close_system y)) /\ (forall k, In k (sy_kv_closed (close_system y)) <-> k = KVMemory \/ exists n, In (WithKVStore (Some n)) mods /\ k = KVGiven n) /\ sy_pool_open (close_system y) = false.
Proof.
  intros ND y. assert (EC : sy_kv_closed (close_system y) = somes (kv_history mods)).
  { unfold close_system. cbn [sy_kv_closed]. subst y. rewrite (proj1 (C121_closed mods)), new_built. destruct (finish_fields (built mods)) as (_ & -> & _). rewrite <- history_last. rewrite (history_split mods) at 3. unfold somes. rewrite flat_map_app. cbn [flat_map]. rewrite app_nil_r. reflexivity. }
  assert (SM : forall l, somes (map (option_map KVGiven) l) = map KVGiven (somes l)) by (induction l as [|[x|] l IH]; cbn; [reflexivity| |]; [f_equal|]; exact IH).
  assert (ES : somes (kv_history mods) = KVMemory :: map KVGiven (somes (picks pick_kv mods))) by (unfold kv_history; cbn [somes flat_map app]; f_equal; apply SM).
  assert (NA : NoDup (somes (kv_history mods))).
  { rewrite ES. constructor; [rewrite in_map_iff; intros (n & Q & _); discriminate|]. apply FinFun.Injective_map_NoDup; [intros a b Q; congruence|exact ND]. }
  split; [|split; [rewrite EC; exact NA|split; [|reflexivity]]].
  - intros k HK. subst y. rewrite (proj1 (C121_closed mods)). rewrite new_built in HK. destruct (finish_fields (built mods)) as (_ & Q & _). rewrite Q, <- history_last in HK. rewrite (history_split mods), HK in NA. unfold somes in NA. rewrite flat_map_app in NA. cbn [flat_map] in NA. rewrite app_nil_r in NA. apply NoDup_remove_2 in NA. rewrite app_nil_r in NA. exact NA.
  - intro k. rewrite EC, ES. cbn [In]. rewrite in_map_iff.
    assert (P : forall n, In n (somes (picks pick_kv mods)) <-> In (WithKVStore (Some n)) mods).
    { intro n. unfold somes, picks. rewrite in_flat_map. split.
      - intros (o & HO & HN). destruct o as [x|]; [|destruct HN]. destruct HN as [->|[]]. apply in_flat_map in HO as (m & HM & HO). destruct m as [| | | | | |k0]; cbn in HO; try contradiction; try (destruct (stream_eqb _ _); contradiction). destruct HO as [HO|[]]. subst k0. exact HM.
      - intro HI. exists (Some n). split; [|left; reflexivity]. apply in_flat_map. exists (WithKVStore (Some n)). split; [exact HI|left; reflexivity]. }
    split; intros [Q|(n & Q & R)]; [left; congruence|right; exists n; rewrite <- P; auto|left; congruence|right; exists n; rewrite P; auto].
Qed.
(** The same store given twice: it is closed and then used. *)
Theorem C121_same_store_refuted : exists mods k, sy_kv (new_system mods) = Some k /\ In k (sy_kv_closed (new_system mods)).
Proof. exists [WithKVStore (Some 7); WithKVStore (Some 7)], (KVGiven 7). split; [reflexivity|]. right. left. reflexivity. Qed.
(** A nil store is kept: nothing puts a store in its place. *)
Theorem C121_nil_kept_refuted : exists mods, sy_kv (new_system mods) = None /\ sy_hints (new_system mods) = None.
Proof. exists [WithKVStore None; WithHintsDB None]. split; reflexivity. Qed.
Print Assumptions C121_relays. Print Assumptions C121_parts. Print Assumptions C121_closed. Print Assumptions C121_in_use_open. Print Assumptions C121_same_store_refuted. Print Assumptions C121_nil_kept_refuted.
Example C121_example : let mods := [WithKVStore (Some 1); WithRelays SFallback [B "wss://a"]; WithKVStore None; WithKVStore (Some 2); WithRelays SFallback [B "wss://b"]; WithMetadataCache (Some 4)] in
  NoDup (somes (picks pick_kv mods)) /\ sy_kv (new_system mods) = Some (KVGiven 2) /\ sy_kv_closed (new_system mods) = [KVMemory; KVGiven 1] /\ sy_urls (new_system mods) SFallback = [B "wss://b"] /\ sy_urls (new_system mods) SJustID = documented SJustID /\ sy_metadata_cache (new_system mods) = Some (CacheGiven 4).
Proof. cbv zeta. split; [replace (somes _) with [1; 2] by reflexivity; repeat constructor; cbn; intuition discriminate|]. repeat split; vm_compute; reflexivity. Qed.

(** ** C122. The lists. *)
Section Lists.
Variable parse_ok : str -> bool.
Variables (url_ok relay_ok : str -> bool) (normalize trim : str -> str).
Notation args := (fetcher_args parse_ok url_ok relay_ok normalize trim).
Notation kind := (f_kind parse_ok url_ok relay_ok normalize trim).
Notation parse := (f_parse parse_ok url_ok relay_ok normalize trim).
Notation slot_of := (f_slot parse_ok url_ok relay_ok normalize trim).
Notation step := (lstep parse_ok url_ok relay_ok normalize trim).
Notation start := (start_phase parse_ok url_ok relay_ok normalize trim).
(** What each is: the number of its kind and the things it is made of. *)
Definition number (f : fetcher) : Z :=
  match f with FFollowList => 3 | FMuteList => 10000 | FPinList => 10001 | FRelayList => 10002 | FBookmarkList => 10003 | FBlockedRelayList => 10006 | FSearchRelayList => 10007 | FTopicList => 10015 | FFollowSets => 30000 | FRelaySets => 30002 | FTopicSets => 30015 end%Z.
Definition made_of (f : fetcher) : tag -> option item :=
  match f with
  | FFollowList | FMuteList | FFollowSets => fun t => option_map IProfile (parse_profile_ref parse_ok url_ok normalize trim t)
  | FRelayList => fun t => option_map IRelay (parse_relay_10002 relay_ok normalize t)
  | FBlockedRelayList | FSearchRelayList | FRelaySets => fun t => option_map IUrl (parse_relay_url relay_ok normalize t)
  | FTopicList | FTopicSets => fun t => option_map ITopic (parse_topic t)
  | FBookmarkList | FPinList => fun t => option_map IEvent (event_ref_item parse_ok normalize t)
  end.
(** The tables fit together: the loader each fetcher uses loads the kind of its list, and no two share a cache. *)
Theorem C122_tables f : kind f = number f /\ f_loader_kind parse_ok url_ok relay_ok normalize trim f = number f /\ parse f = made_of f /\ (forall g, slot_of g = slot_of f -> g = f) /\ (forall g, number g = number f -> g = f).
Proof. destruct f; (split; [reflexivity|split; [reflexivity|split; [reflexivity|split; intro g; destruct g; cbn; intro Q; try reflexivity; discriminate Q]]]). Qed.

(** What may be returned for a key. *)
Definition of_list (f : fetcher) (pk : str) (e : event) : Prop := ev_kind e = number f /\ ev_pubkey e = pk.
Definition good (f : fetcher) (pk : str) (v : entry) : Prop :=
  match v with
  | EList p oe items => is_sets f = false /\ p = pk /\ match oe with None => items = [] | Some e => of_list f pk e /\ items = firsts item_value (parsed (made_of f) (ev_tags e)) end
  | ESets p es sets => is_sets f = true /\ p = pk /\ (forall e, In e es -> of_list f pk e) /\
      forall d, assoc d sets = option_map (fun e => firsts item_value (parsed (made_of f) (ev_tags e))) (find (fun e => seqb (get_d (ev_tags e)) d) (rev es))
  end.
Lemma good_entry f pk e rest : (forall x, In x (e :: rest) -> of_list f pk x) -> good f pk (entry_of parse_ok url_ok relay_ok normalize trim f pk e rest).
Proof.
  intro H. unfold entry_of. destruct (C122_tables f) as (_ & _ & -> & _). destruct (is_sets f) eqn:IS; cbn [good]; split; try exact IS; (split; [reflexivity|]).
  - split; [exact H|]. intro d. apply C63_sets.
  - split; [apply H; left; reflexivity|]. unfold items_of. rewrite C63_items. reflexivity.
Qed.
Lemma good_empty f pk : good f pk (empty_entry f pk).
Proof. unfold empty_entry. destruct (is_sets f) eqn:IS; cbn [good]; (split; [exact IS|split; [reflexivity|]]); [split; [intros e []|reflexivity]|reflexivity]. Qed.
(** The local store and the loaders answer the question put to them: events of that kind and author. *)
Definition honest (a : laction) : Prop :=
  match a with
  | LStart f pk _ stored => forall e, In e stored -> of_list f pk e
  | LEnd _ _ answer => forall k pk n ns, answer k pk = Some (n, ns) -> forall e, In e (n :: ns) -> ev_kind e = k /\ ev_pubkey e = pk
  | LForget _ _ => True
  end.
Definition asked_for (s : lsys) (f : fetcher) (pk : str) : Prop := exists i ph, nth_error (ls_calls s) i = Some (mkCall f pk ph).
Definition linv (s : lsys) : Prop :=
  (forall f h v, In (h, v) (ls_caches s (slot_of f)) -> exists pk, asked_for s f pk /\ h = short_uint64 pk /\ good f pk v) /\
  (forall i c, nth_error (ls_calls s) i = Some c -> match c_phase c with
     | PNet stored => forall e, In e stored -> of_list (c_f c) (c_pk c) e
     | PKeep v => good (c_f c) (c_pk c) v
     | PDone v _ _ => exists pk, asked_for s (c_f c) pk /\ short_uint64 (c_pk c) = short_uint64 pk /\ good (c_f c) pk v
     | PPanic => True end) /\
  (forall e, In e (ls_published s) -> exists f pk, asked_for s f pk /\ of_list f pk e).
Lemma asked_upd s cs' f pk : (forall i c, nth_error (ls_calls s) i = Some c -> exists ph, nth_error cs' i = Some (mkCall (c_f c) (c_pk c) ph)) -> asked_for s f pk -> exists i ph, nth_error cs' i = Some (mkCall f pk ph).
Proof. intros H (i & ph & N). destruct (H i _ N) as (ph' & N'). exists i, ph'. exact N'. Qed.
Lemma in_cache_set {V} k (v : V) m h w : In (h, w) (cache_set k v m) -> (h = short_uint64 k /\ w = v) \/ In (h, w) m.
Proof. unfold cache_set. intros [Q|Q]; [left; split; congruence|right; apply filter_In in Q; tauto]. Qed.
Lemma slot_eqb_spec a b : reflect (a = b) (slot_eqb a b).
Proof. destruct a, b; constructor; congruence. Qed.
Lemma cache_get_in {V} k (m : list (Z * V)) v : cache_get k m = Some v -> In (short_uint64 k, v) m.
Proof. unfold cache_get. destruct (find _ m) as [[h w]|] eqn:F; [|discriminate]. cbn. intro Q. injection Q as ->. apply find_some in F as [I E]. cbn in E. apply Z.eqb_eq in E. subst h. exact I. Qed.
Lemma upd_keeps s i f pk ph0 ph : nth_error (ls_calls s) i = Some (mkCall f pk ph0) ->
  forall j c, nth_error (ls_calls s) j = Some c -> exists ph', nth_error (upd (ls_calls s) i (mkCall f pk ph)) j = Some (mkCall (c_f c) (c_pk c) ph').
Proof.
  intros N j c J. destruct (Nat.eq_dec i j) as [<-|D].
  - rewrite N in J. injection J as <-. exists ph. apply nth_upd_same. eapply nth_lt, N.
  - exists (c_phase c). rewrite nth_upd_other by exact D. rewrite J. destruct c; reflexivity.
Qed.
(** A step that only finishes call [i]. *)
Lemma linv_finish s i f pk ph0 ph caches' kv' pub' : linv s -> nth_error (ls_calls s) i = Some (mkCall f pk ph0) ->
  (match ph with PDone v _ _ => good f pk v | PPanic => True | _ => False end) ->
  (forall g h v, In (h, v) (caches' (slot_of g)) -> In (h, v) (ls_caches s (slot_of g)) \/ (g = f /\ h = short_uint64 pk /\ good f pk v)) ->
  (forall e, In e pub' -> In e (ls_published s) \/ of_list f pk e) ->
  linv (mkLS caches' kv' (upd (ls_calls s) i (mkCall f pk ph)) pub').
Proof.
  intros (I1 & I2 & I3) N G C P. set (s' := mkLS caches' kv' (upd (ls_calls s) i (mkCall f pk ph)) pub').
  assert (AF : forall g k, asked_for s g k -> asked_for s' g k) by (intros g k A; eapply asked_upd; [|exact A]; apply upd_keeps with (ph0 := ph0); exact N).
  assert (ME : asked_for s' f pk) by (exists i, ph; apply nth_upd_same; eapply nth_lt, N).
  split; [|split].
  - intros g h v HI. destruct (C g h v HI) as [HI'|(-> & -> & GV)]; [|exists pk; auto]. destruct (I1 g h v HI') as (k & A & E & GK). exists k. auto.
  - intros j c J. apply nth_upd in J as [(<- & ->)|(D & J)].
    + cbn [c_phase c_f c_pk]. destruct ph as [st|v|v a b|]; [destruct G|destruct G|exists pk; auto|exact Logic.I].
    + specialize (I2 j c J). destruct (c_phase c) as [st|v|v a b|]; auto. destruct I2 as (k & A & E & GK). exists k. auto.
  - intros e HE. destruct (P e HE) as [HE'|O]; [destruct (I3 e HE') as (g & k & A & O); exists g, k; auto|exists f, pk; auto].
Qed.
Lemma linv_step a s s' : honest a -> linv s -> step a s = Some s' -> linv s'.
Proof.
  intros HA HI H. destruct a as [f pk now stored|i now answer|t h]; cbn [lstep] in H.
  - assert (s' = mkLS (ls_caches s) (ls_kv s) (ls_calls s ++ [mkCall f pk (start f pk now stored s)]) (ls_published s)) as -> by congruence. clear H. destruct HI as (I1 & I2 & I3).
    set (s' := mkLS _ _ _ _). assert (AF : forall g k, asked_for s g k -> asked_for s' g k) by (intros g k (j & ph & J); exists j, ph; apply nth_snoc_old, J).
    assert (ME : asked_for s' f pk) by (eexists _, _; apply nth_snoc_new).
    split; [|split].
    + intros g h v HG. destruct (I1 g h v HG) as (k & A & R). exists k. auto.
    + intros j c J. apply nth_snoc in J as [J|(_ & ->)].
      * specialize (I2 j c J). destruct (c_phase c); auto. destruct I2 as (k & A & R). exists k. auto.
      * cbn [c_phase c_f c_pk]. unfold start_phase. destruct (_ <? _)%nat; [exact Logic.I|]. destruct (cache_get pk (ls_caches s (slot_of f))) as [v|] eqn:CG.
        -- apply cache_get_in in CG. destruct (I1 f _ _ CG) as (k & A & R). exists k. split; auto.
        -- destruct stored as [|e rest]; [intros e []|]. destruct (last_fetch_key _ _); try exact Logic.I. destruct (stale _ _ _) as [[]| |]; try exact Logic.I; [exact HA|]. apply good_entry, HA.
    + intros e HE. destruct (I3 e HE) as (g & k & A & O). exists g, k. auto.
  - destruct (nth_error (ls_calls s) i) as [[f pk ph]|] eqn:N; [|discriminate]. destruct ph as [stored|v|v ? ?|]; try discriminate.
    + pose proof (proj1 (proj2 HI) i _ N) as HS. cbn [c_phase c_f c_pk] in HS. destruct (C122_tables f) as (_ & LK & _).
      assert (NET : forall n ns, answer (f_loader_kind parse_ok url_ok relay_ok normalize trim f) pk = Some (n, ns) -> forall e, In e (n :: ns) -> of_list f pk e) by (intros n ns Q e HE; destruct (HA _ _ _ _ Q e HE) as [Q1 Q2]; split; [congruence|exact Q2]).
      destruct (answer (f_loader_kind parse_ok url_ok relay_ok normalize trim f) pk) as [[n ns]|] eqn:AN.
      * specialize (NET n ns eq_refl).
        assert (PB : forall e, In e (ls_published s ++ n :: (if is_sets f then ns else [])) -> In e (ls_published s) \/ of_list f pk e).
        { intros e HE. apply in_app_or in HE as [HE|[->|HE]]; [auto|right; apply NET; left; reflexivity|]. destruct (is_sets f); [right; apply NET; right; exact HE|destruct HE]. }
        assert (EN : exists v b, end_net parse_ok url_ok relay_ok normalize trim f pk stored (Some (n, ns)) = Some (v, b, true) /\ good f pk v).
        { destruct stored as [|e rest]; cbn [end_net]; eexists _, _; (split; [reflexivity|]); [apply good_entry, NET|]. destruct (is_sets f || _); apply good_entry; assumption. }
        destruct EN as (v & b & EN & GV). rewrite EN in H. cbn [option_map] in H.
        destruct (last_fetch_key _ _) as [key| |]; [| |]; (match type of H with Some ?x = _ => assert (s' = x) as -> by congruence end); (apply linv_finish with (ph0 := PNet stored); [exact HI|exact N| | |exact PB]); try exact Logic.I; try exact GV; try (intros g h w HW; left; exact HW).
        intros g h w HW. unfold l_set in HW. destruct (slot_eqb_spec (slot_of g) (slot_of f)) as [Q|Q]; [|left; exact HW]. destruct (C122_tables f) as (_ & _ & _ & INJ & _). apply in_cache_set in HW as [[-> ->]|HW]; [right; auto|left; exact HW].
      * assert (PB : forall e, In e (ls_published s ++ []) -> In e (ls_published s) \/ of_list f pk e) by (intro e; rewrite app_nil_r; auto).
        destruct stored as [|e rest].
        -- cbn [end_net] in H. match type of H with Some ?x = _ => assert (s' = x) as -> by congruence end. apply linv_finish with (ph0 := PNet []); [exact HI|exact N|apply good_empty| |exact PB].
           intros g h w HW. unfold l_set in HW. destruct (slot_eqb_spec (slot_of g) (slot_of f)) as [Q|Q]; [|left; exact HW]. destruct (C122_tables f) as (_ & _ & _ & INJ & _). apply in_cache_set in HW as [[-> ->]|HW]; [right; split; [auto|split; [reflexivity|apply good_empty]]|left; exact HW].
        -- cbn [end_net] in H. destruct (is_sets f) eqn:IS.
           ++ match type of H with Some ?x = _ => assert (s' = x) as -> by congruence end. apply linv_finish with (ph0 := PNet (e :: rest)); [exact HI|exact N|exact Logic.I|intros; left; assumption|auto].
           ++ pose proof (good_entry f pk e rest HS) as GV. destruct (last_fetch_key _ _) as [key| |]; (match type of H with Some ?x = _ => assert (s' = x) as -> by congruence end); (apply linv_finish with (ph0 := PNet (e :: rest)); [exact HI|exact N| | |exact PB]); try exact Logic.I; try exact GV; try (intros g h w HW; left; exact HW).
              intros g h w HW. unfold l_set in HW. destruct (slot_eqb_spec (slot_of g) (slot_of f)) as [Q|Q]; [|left; exact HW]. destruct (C122_tables f) as (_ & _ & _ & INJ & _). apply in_cache_set in HW as [[-> ->]|HW]; [right; auto|left; exact HW].
    + pose proof (proj1 (proj2 HI) i _ N) as GV. cbn [c_phase c_f c_pk] in GV. match type of H with Some ?x = _ => assert (s' = x) as -> by congruence end.
      apply linv_finish with (ph0 := PKeep v); [exact HI|exact N|exact GV| |auto].
      intros g h w HW. unfold l_set in HW. destruct (slot_eqb_spec (slot_of g) (slot_of f)) as [Q|Q]; [|left; exact HW]. destruct (C122_tables f) as (_ & _ & _ & INJ & _). apply in_cache_set in HW as [[-> ->]|HW]; [right; auto|left; exact HW].
  - match type of H with Some ?x = _ => assert (s' = x) as -> by congruence end. destruct HI as (I1 & I2 & I3). split; [|split; [exact I2|exact I3]]. intros g h0 v HG. apply (I1 g h0 v). cbn [ls_caches] in HG. destruct (slot_eqb (slot_of g) t); [apply filter_In in HG; tauto|exact HG].
Qed.
Definition lruns (l : list laction) (kv : list (str * str)) (s : lsys) : Prop := exec step l (ls_init kv) = Some s /\ forall a, In a l -> honest a.
Lemma lruns_inv l kv s : lruns l kv s -> linv s.
Proof.
  intros (H & P). revert H P. assert (G : forall l s0, linv s0 -> exec step l s0 = Some s -> (forall a, In a l -> honest a) -> linv s).
  { clear. induction l as [|a l IH]; intros s0 I0 H P; cbn [exec] in H; [congruence|]. destruct (step a s0) as [s1|] eqn:E; [|discriminate]. refine (IH s1 _ H _); [eapply linv_step; [apply P; left; reflexivity|exact I0|exact E]|intros b HB; apply P; right; exact HB]. }
  intros H P. refine (G l _ _ H P). split; [intros f h v []|]. split; [intros i c Q; destruct i; discriminate|intros e []].
Qed.
(** A finished call returns a list of its own kind, read with its own reader, of an author that somebody asked for and whose key has the same
    last four bytes as the one asked for; so of that very author if no two keys asked for have the same. Everything put into the local store was asked for. *)
Theorem C122_no_mixing l kv s i f pk v a b : lruns l kv s -> nth_error (ls_calls s) i = Some (mkCall f pk (PDone v a b)) ->
  exists pk', asked_for s f pk' /\ short_uint64 pk = short_uint64 pk' /\ good f pk' v.
Proof. intros R N. apply lruns_inv in R as (_ & I2 & _). exact (I2 i _ N). Qed.
Theorem C122_published l kv s e : lruns l kv s -> In e (ls_published s) -> exists f pk, asked_for s f pk /\ of_list f pk e.
Proof. intros R N. apply lruns_inv in R as (_ & _ & I3). exact (I3 e N). Qed.
(** Missing: the refutation below. *)
Theorem C122_own_list_partial l kv s i f pk v a b : lruns l kv s -> nth_error (ls_calls s) i = Some (mkCall f pk (PDone v a b)) ->
  (forall g k, asked_for s g k -> short_uint64 pk = short_uint64 k -> k = pk) -> good f pk v.
Proof. intros R N D. destruct (C122_no_mixing l kv s i f pk v a b R N) as (k & A & E & G). rewrite (D f k A E) in G. exact G. Qed.

(** ** Once a call has ended, the next for the same list is answered from the cache, until the cache drops it. *)
Definition in_cache (s : lsys) (f : fetcher) (pk : str) : Prop := exists v, cache_get pk (ls_caches s (slot_of f)) = Some v.
Lemma ends_cached i now answer s s1 f pk v a b : step (LEnd i now answer) s = Some s1 -> nth_error (ls_calls s1) i = Some (mkCall f pk (PDone v a b)) -> cache_get pk (ls_caches s1 (slot_of f)) = Some v.
Proof.
  cbn [lstep]. destruct (nth_error (ls_calls s) i) as [[g k ph]|] eqn:N; [|discriminate]. assert (L : i < length (ls_calls s)) by (eapply nth_lt, N).
  assert (SET : forall w, cache_get k (l_set (slot_of g) k w (ls_caches s) (slot_of g)) = Some w) by (intro w; unfold l_set; destruct (slot_eqb_spec (slot_of g) (slot_of g)); [|congruence]; rewrite cache_get_set, Z.eqb_refl; reflexivity).
  destruct ph as [stored|w|w ? ?|]; try discriminate.
  - destruct (end_net _ _ _ _ _ _ _ _ _) as [[[w bi] []]|]; [destruct (last_fetch_key _ _)| |]; intro H; (match type of H with Some ?x = _ => assert (s1 = x) as -> by congruence end); cbn [ls_calls ls_caches]; rewrite nth_upd_same by exact L; intro Q; try discriminate; assert (g = f /\ k = pk /\ w = v) as (<- & <- & <-) by (repeat split; congruence); apply SET.
  - intro H. match type of H with Some ?x = _ => assert (s1 = x) as -> by congruence end. cbn [ls_calls ls_caches]. rewrite nth_upd_same by exact L. intro Q. assert (g = f /\ k = pk /\ w = v) as (<- & <- & <-) by (repeat split; congruence). apply SET.
Qed.
Lemma cached_step a s s' f pk : a <> LForget (slot_of f) (short_uint64 pk) -> in_cache s f pk -> step a s = Some s' -> in_cache s' f pk.
Proof.
  intros NA (v & G) H. destruct a as [g k now stored|i now answer|t h]; cbn [lstep] in H.
  - match type of H with Some ?x = _ => assert (s' = x) as -> by congruence end. exists v. exact G.
  - assert (SET : forall g k w, exists v', cache_get pk (l_set (slot_of g) k w (ls_caches s) (slot_of f)) = Some v').
    { intros g k w. unfold l_set. destruct (slot_eqb_spec (slot_of f) (slot_of g)) as [E|E]; [|exists v; exact G]. rewrite cache_get_set. destruct (_ =? _)%Z; eauto. }
    destruct (nth_error (ls_calls s) i) as [[g k ph]|]; [|discriminate]. destruct ph as [st|w|w ? ?|]; try discriminate.
    + destruct (end_net _ _ _ _ _ _ _ _ _) as [[[w bi] []]|]; [destruct (last_fetch_key _ _)| |]; (match type of H with Some ?x = _ => assert (s' = x) as -> by congruence end); first [apply SET|exists v; exact G].
    + match type of H with Some ?x = _ => assert (s' = x) as -> by congruence end. apply SET.
  - match type of H with Some ?x = _ => assert (s' = x) as -> by congruence end. unfold in_cache. cbn [ls_caches]. destruct (slot_eqb_spec (slot_of f) t) as [E|E]; [|exists v; exact G]. exists v. unfold cache_get in *.
    assert (NH : h <> short_uint64 pk) by (intro Q; apply NA; congruence). clear -G NH. induction (ls_caches s (slot_of f)) as [|[h0 w] m IH]; cbn [find filter fst] in *; [discriminate|].
    destruct (Z.eqb_spec h0 (short_uint64 pk)) as [->|D].
    + destruct (Z.eqb_spec (short_uint64 pk) h) as [Q|_]; [congruence|]. cbn [negb find fst]. rewrite Z.eqb_refl. exact G.
    + destruct (Z.eqb_spec h0 h) as [_|_]; cbn [negb find fst]; [|destruct (Z.eqb_spec h0 (short_uint64 pk)); [congruence|]]; apply IH; exact G.
Qed.
Theorem C122_cached i now answer s s1 f pk v a b acts s2 now' stored : step (LEnd i now answer) s = Some s1 -> nth_error (ls_calls s1) i = Some (mkCall f pk (PDone v a b)) ->
  exec step acts s1 = Some s2 -> ~ In (LForget (slot_of f) (short_uint64 pk)) acts -> 16 <= length pk ->
  (exists w, start f pk now' stored s2 = PDone w true false) /\ (acts = [] -> start f pk now' stored s2 = PDone v true false).
Proof.
  intros H N E NF LP. pose proof (ends_cached _ _ _ _ _ _ _ _ _ _ H N) as C0.
  assert (ST : forall s w, cache_get pk (ls_caches s (slot_of f)) = Some w -> start f pk now' stored s = PDone w true false) by (intros t w Q; unfold start_phase; rewrite Q; destruct (Nat.ltb_spec (length pk) 16); [lia|reflexivity]).
  split; [|intros ->; cbn [exec] in E; assert (s2 = s1) as -> by congruence; apply ST, C0].
  assert (C1 : in_cache s1 f pk) by (exists v; exact C0). clear H N C0. revert s1 E C1. induction acts as [|x acts IH]; intros s1 E C1; cbn [exec] in E.
  - assert (s2 = s1) as -> by congruence. destruct C1 as (w & C1). exists w. apply ST, C1.
  - destruct (step x s1) as [s1'|] eqn:X; [|discriminate]. refine (IH _ s1' E _); [intro Q; apply NF; right; exact Q|]. eapply cached_step; [|exact C1|exact X]. intros ->. apply NF. left. reflexivity.
Qed.

(** ** The network is left alone for the days of the list's kind after an attempt that was recorded, while something is stored; whatever other lists are fetched. *)
Definition time_of (a : laction) : option Z := match a with LEnd _ now _ => Some now | _ => None end.
Lemma kv_step a s s' : step a s = Some s' -> ls_kv s' = ls_kv s \/ exists i now answer f pk ph key, a = LEnd i now answer /\ nth_error (ls_calls s) i = Some (mkCall f pk ph) /\ last_fetch_key (number f) pk = Ok key /\ ls_kv s' = mset key (encode_ts now) (ls_kv s).
Proof.
  destruct a as [g k now stored|i now answer|t h]; cbn [lstep]; intro H; try (left; match type of H with Some ?x = _ => assert (s' = x) as -> by congruence end; reflexivity).
  destruct (nth_error (ls_calls s) i) as [[f pk ph]|] eqn:N; [|discriminate]. destruct (C122_tables f) as (KF & _). destruct ph as [st|w|w ? ?|]; try discriminate.
  - destruct (end_net _ _ _ _ _ _ _ _ _) as [[[w bi] []]|]; [destruct (last_fetch_key (kind f) pk) as [key| |] eqn:LK| |]; (match type of H with Some ?x = _ => assert (s' = x) as -> by congruence end); try (left; reflexivity).
    right. exists i, now, answer, f, pk, (PNet st), key. rewrite <- KF. auto.
  - left. match type of H with Some ?x = _ => assert (s' = x) as -> by congruence end. reflexivity.
Qed.
(** What is recorded about a list is moved by no other list's fetch. *)
Theorem C122_own_record a s s' f b key : length b = 32 -> step a s = Some s' -> last_fetch_key (number f) (hex_encode b) = Ok key -> assoc key (ls_kv s') <> assoc key (ls_kv s) ->
  (forall i g pk ph, nth_error (ls_calls s) i = Some (mkCall g pk ph) -> exists c, length c = 32 /\ pk = hex_encode c) ->
  exists i now answer ph, a = LEnd i now answer /\ nth_error (ls_calls s) i = Some (mkCall f (hex_encode b) ph) /\ assoc key (ls_kv s') = Some (encode_ts now).
Proof.
  intros LB H LK D KEYS. destruct (kv_step _ _ _ H) as [Q|(i & now & answer & g & pk & ph & key' & -> & N & LK' & KV)]; [rewrite Q in D; congruence|]. rewrite KV, assoc_mset in *. destruct (seqb_spec key key') as [->|NE]; [|congruence].
  destruct (KEYS i g pk ph N) as (c & LC & ->). assert (NR : forall x, (0 <= number x < 2 ^ 32)%Z) by (intro x; destruct x; cbn; lia). destruct (C106_keys_distinct (number f) (number g) b c key' (NR f) (NR g) LB LC LK LK') as [KE ->].
  assert (f = g) as -> by (apply (C122_tables g); exact KE). exists i, now, answer, ph. auto.
Qed.
Lemma record_step t0 key a s s' : (exists t1, assoc key (ls_kv s) = Some (encode_ts t1) /\ (t0 <= t1 < 2 ^ 32)%Z) -> (forall t, time_of a = Some t -> (t0 <= t < 2 ^ 32)%Z) -> step a s = Some s' ->
  exists t1, assoc key (ls_kv s') = Some (encode_ts t1) /\ (t0 <= t1 < 2 ^ 32)%Z.
Proof.
  intros (t1 & A & R) T H. destruct (kv_step _ _ _ H) as [->|(i & now & answer & g & pk & ph & key' & -> & _ & _ & ->)]; [eauto|]. rewrite assoc_mset. destruct (seqb key key'); [|eauto]. exists now. split; [reflexivity|]. apply T. reflexivity.
Qed.
(** Days between two attempts for the same list. *)
Definition days_of (f : fetcher) : Z := match f with FFollowList => 1 | _ => 3 end%Z.
Theorem C122_left_alone i t0 answer s s1 f pk v internal acts s2 now stored stored' : step (LEnd i t0 answer) s = Some s1 -> nth_error (ls_calls s1) i = Some (mkCall f pk (PDone v internal true)) ->
  (internal = true \/ exists n ns, answer (number f) pk = Some (n, ns)) -> (0 <= t0 < 2 ^ 32)%Z ->
  exec step acts s1 = Some s2 -> (forall a t, In a acts -> time_of a = Some t -> (t0 <= t < 2 ^ 32)%Z) ->
  stored <> [] -> start f pk now stored s2 = PNet stored' -> (days_of f * 86400 < now - t0)%Z.
Proof.
  intros H N A T0 E T ST P. destruct (C122_tables f) as (KF & LF & _).
  assert (K0 : exists key, last_fetch_key (number f) pk = Ok key /\ assoc key (ls_kv s1) = Some (encode_ts t0)).
  { cbn [lstep] in H. destruct (nth_error (ls_calls s) i) as [[g k ph]|] eqn:N0; [|discriminate]. assert (L : i < length (ls_calls s)) by (eapply nth_lt, N0). destruct ph as [st|w|w ? ?|]; try discriminate.
    - destruct (end_net _ _ _ _ _ _ _ _ _) as [[[w bi] []]|] eqn:EN; [destruct (last_fetch_key (kind g) k) as [key| |] eqn:LK| |]; (match type of H with Some ?x = _ => assert (s1 = x) as -> by congruence end); cbn [ls_calls] in N; rewrite nth_upd_same in N by exact L; try discriminate.
      + assert (g = f /\ k = pk) as (-> & ->) by (split; congruence). exists key. rewrite <- KF. split; [exact LK|]. cbn [ls_kv]. rewrite assoc_mset, seqb_refl. reflexivity.
      + exfalso. assert (g = f /\ k = pk /\ bi = internal) as (-> & -> & ->) by (repeat split; congruence). rewrite LF in EN. destruct st as [|e rest]; cbn [end_net] in EN.
        * destruct (answer (number f) pk) as [[n ns]|]; [congruence|]. assert (internal = false) as -> by congruence. destruct A as [A|(n & ns & A)]; discriminate.
        * destruct (answer (number f) pk) as [[n ns]|]; [congruence|]. destruct (is_sets f); congruence.
    - match type of H with Some ?x = _ => assert (s1 = x) as -> by congruence end. cbn [ls_calls] in N. rewrite nth_upd_same in N by exact L. discriminate. }
  destruct K0 as (key & LK & K0). assert (KR : exists t1, assoc key (ls_kv s2) = Some (encode_ts t1) /\ (t0 <= t1 < 2 ^ 32)%Z).
  { assert (K1 : exists t1, assoc key (ls_kv s1) = Some (encode_ts t1) /\ (t0 <= t1 < 2 ^ 32)%Z) by (exists t0; split; [exact K0|lia]). clear H N K0. revert s1 E K1. induction acts as [|x acts IH]; intros s1 E K1; cbn [exec] in E; [assert (s2 = s1) as -> by congruence; exact K1|].
    destruct (step x s1) as [s1'|] eqn:X; [|discriminate]. refine (IH _ s1' E _); [intros a t HA; apply T; right; exact HA|]. eapply record_step; [exact K1|intros t HT; apply (T x t); [left; reflexivity|exact HT]|exact X]. }
  destruct KR as (t1 & A1 & R1). unfold start_phase in P. rewrite KF in P. destruct (_ <? _)%nat; [discriminate|]. destruct (cache_get _ _); [discriminate|]. destruct stored as [|e rest]; [congruence|]. rewrite LK, A1 in P. unfold stale in P. rewrite ts_back in P by lia. cbn [obind] in P.
  destruct (now - t1 >? _)%Z eqn:G; [|discriminate]. rewrite Z.gtb_ltb in G. apply Z.ltb_lt in G. assert (D : refresh_days (number f) = days_of f) by (destruct f; reflexivity). rewrite D in G. lia.
Qed.

(** ** Alone, a call does what C82 says of one. *)
Definition as_list (v : option entry) : option (option event * list item) := match v with Some (EList _ e l) => Some (e, l) | _ => None end.
Definition as_sets (v : option entry) : option (list event * list (str * list item)) := match v with Some (ESets _ es l) => Some (es, l) | _ => None end.
Definition entry_list (f : fetcher) (pk : str) (l : option event * list item) : entry := EList pk (fst l) (snd l).
Definition entry_sets (f : fetcher) (pk : str) (l : list event * list (str * list item)) : entry := ESets pk (fst l) (snd l).
Theorem C122_alone_list f pk now stored answer kv s key : is_sets f = false -> 16 <= length pk -> last_fetch_key (number f) pk = Ok key ->
  exec step [LStart f pk now stored; LEnd 0 now answer] (ls_init kv) = Some s ->
  match fetch_list item_value (made_of f) (number f) now None stored (assoc key kv) (option_map fst (answer (number f) pk)) with
  | Ok r => ls_calls s = [mkCall f pk (PDone (EList pk (fst (fd_list r)) (snd (fd_list r))) (fd_internal r) (fd_asked r))] /\ ls_kv s = match fd_attempt r with Some t => mset key t kv | None => kv end /\
            ls_published s = (if fd_asked r then match answer (number f) pk with Some (n, _) => [n] | None => [] end else [])
  | _ => False
  end.
Proof.
  intros IS LP LK. destruct (C122_tables f) as (KF & LF & PF & _). cbn [exec lstep ls_init ls_calls ls_caches ls_kv ls_published app]. unfold start_phase. change (cache_get pk (ls_caches (ls_init kv) (slot_of f))) with (@None entry). change (ls_kv (ls_init kv)) with kv. destruct (Nat.ltb_spec (length pk) 16) as [BAD|_]; [lia|]. rewrite KF, LK.
  destruct stored as [|e rest]; cbn [nth_error].
  - rewrite LF, KF, LK. unfold fetch_list. destruct (answer (number f) pk) as [[n ns]|]; cbn [end_net option_map fst]; unfold entry_of, empty_entry; rewrite IS, ?PF; intro H; (match type of H with Some ?x = _ => assert (s = x) as -> by congruence end); cbn; repeat split.
  - unfold fetch_list. destruct (stale (number f) now (assoc key kv)) as [[]| |]; cbn [obind nth_error].
    + rewrite LF, KF, LK. destruct (answer (number f) pk) as [[n ns]|]; cbn [end_net option_map fst]; unfold entry_of; rewrite IS, ?PF; cbn [orb]; intro H; (match type of H with Some ?x = _ => assert (s = x) as -> by congruence end); [destruct (_ >? _)%Z|]; cbn; repeat split.
    + intro H. match type of H with Some ?x = _ => assert (s = x) as -> by congruence end. unfold entry_of. rewrite IS, PF. cbn. repeat split.
    + discriminate.
    + discriminate.
Qed.
Theorem C122_alone_sets f pk now stored answer kv s key : is_sets f = true -> 16 <= length pk -> last_fetch_key (number f) pk = Ok key ->
  exec step [LStart f pk now stored; LEnd 0 now answer] (ls_init kv) = Some s ->
  match fetch_sets item_value (made_of f) (number f) now None stored (assoc key kv) (option_map (fun '(n, ns) => n :: ns) (answer (number f) pk)) with
  | Ok r => ls_calls s = [mkCall f pk (PDone (ESets pk (fst (fd_list r)) (snd (fd_list r))) (fd_internal r) (fd_asked r))] /\ ls_kv s = match fd_attempt r with Some t => mset key t kv | None => kv end /\
            ls_published s = (if fd_asked r then match answer (number f) pk with Some (n, ns) => n :: ns | None => [] end else [])
  | Panic => ls_calls s = [mkCall f pk PPanic]
  | Err => False
  end.
Proof.
  intros IS LP LK. destruct (C122_tables f) as (KF & LF & PF & _). cbn [exec lstep ls_init ls_calls ls_caches ls_kv ls_published app]. unfold start_phase. change (cache_get pk (ls_caches (ls_init kv) (slot_of f))) with (@None entry). change (ls_kv (ls_init kv)) with kv. destruct (Nat.ltb_spec (length pk) 16) as [BAD|_]; [lia|]. rewrite KF, LK.
  destruct stored as [|e rest]; cbn [nth_error].
  - rewrite LF, KF, LK. unfold fetch_sets. destruct (answer (number f) pk) as [[n ns]|]; cbn [end_net option_map]; unfold entry_of, empty_entry; rewrite IS, ?PF; intro H; (match type of H with Some ?x = _ => assert (s = x) as -> by congruence end); cbn; repeat split.
  - unfold fetch_sets. destruct (stale (number f) now (assoc key kv)) as [[]| |]; cbn [obind nth_error].
    + rewrite LF, KF, LK. destruct (answer (number f) pk) as [[n ns]|]; cbn [end_net option_map]; unfold entry_of; rewrite ?IS, ?PF; cbn [orb]; intro H; (match type of H with Some ?x = _ => assert (s = x) as -> by congruence end); cbn; repeat split.
    + intro H. match type of H with Some ?x = _ => assert (s = x) as -> by congruence end. unfold entry_of. rewrite IS, PF. cbn. repeat split.
    + discriminate.
    + discriminate.
Qed.
(** A waiting call can always end, and does so with a result, but for sets that are stored when the network is silent. *)
Theorem C122_ends s i f pk ph now answer key : nth_error (ls_calls s) i = Some (mkCall f pk ph) -> (exists st, ph = PNet st) \/ (exists v, ph = PKeep v) -> last_fetch_key (number f) pk = Ok key ->
  exists s', step (LEnd i now answer) s = Some s' /\ exists ph', nth_error (ls_calls s') i = Some (mkCall f pk ph') /\
    ((exists v a b, ph' = PDone v a b) \/ (ph' = PPanic /\ is_sets f = true /\ answer (number f) pk = None /\ exists e rest, ph = PNet (e :: rest))).
Proof.
  intros N W LK. destruct (C122_tables f) as (KF & LF & _). assert (L : i < length (ls_calls s)) by (eapply nth_lt, N). cbn [lstep]. rewrite N. destruct W as [(st & ->)|(v & ->)].
  - rewrite LF, KF, LK. destruct (end_net _ _ _ _ _ _ _ _ _) as [[[w bi] []]|] eqn:EN; (eexists; split; [reflexivity|]); cbn [ls_calls]; rewrite nth_upd_same by exact L; (eexists; split; [reflexivity|]); eauto.
    right. split; [reflexivity|]. destruct st as [|e rest]; cbn [end_net] in EN; destruct (answer (number f) pk) as [[n ns]|]; try discriminate. destruct (is_sets f); [eauto|discriminate].
  - eexists. split; [reflexivity|]. cbn [ls_calls]. rewrite nth_upd_same by exact L. eexists. split; [reflexivity|]. left. eauto.
Qed.
End Lists.
Print Assumptions C122_tables. Print Assumptions C122_no_mixing. Print Assumptions C122_published. Print Assumptions C122_own_list_partial. Print Assumptions C122_cached. Print Assumptions C122_own_record.
Print Assumptions C122_left_alone. Print Assumptions C122_alone_list. Print Assumptions C122_alone_sets. Print Assumptions C122_ends.

(** ** Cases. *)
Definition ok_all : str -> bool := fun _ => true.
Definition same : str -> str := fun x => x.
Definition key_a : str := hex_encode (repeat (byte_of 7) 32).
Definition key_b : str := hex_encode (byte_of 8 :: repeat (byte_of 7) 31).   (* the last four bytes of key_a *)
Definition key_c : str := hex_encode (repeat (byte_of 9) 32).
Definition ev_of (pk : str) (t k : Z) (tags : list tag) : event := mkEvent (B "id") pk t k tags [] [].
Definition topics (pk : str) (t : Z) (x : string) : event := ev_of pk t 10015 [[B "t"; B x]].
Definition answers (l : list (event * list event)) (k : Z) (pk : str) : option (event * list event) := find (fun '(e, _) => (ev_kind e =? k)%Z && seqb (ev_pubkey e) pk) l.
Notation istep := (lstep ok_all ok_all ok_all same same).
Definition happened (l : list laction) : option lsys := exec istep l (ls_init []).
Lemma answers_honest i now e ns : (forall x, In x ns -> ev_kind x = ev_kind e /\ ev_pubkey x = ev_pubkey e) -> honest (LEnd i now (answers [(e, ns)])).
Proof.
  intros H k pk n ms. unfold answers. cbn [find]. destruct ((ev_kind e =? k)%Z && seqb (ev_pubkey e) pk) eqn:Q; [|discriminate]. apply andb_prop in Q as [Q1 Q2]. apply Z.eqb_eq in Q1. apply seqb_eq in Q2. intro R. assert (n = e /\ ms = ns) as (-> & ->) by (split; congruence). intros x [<-|HX]; [auto|]. destruct (H x HX). split; congruence.
Qed.
(** Three lists of two people, one found locally; the second fetch of a topic list comes from the cache. *)
Example C122_example : let l := [LStart FTopicList key_a 1000000 []; LStart FMuteList key_c 1000000 [ev_of key_c 5 10000 []]; LStart FTopicList key_c 1000000 []; LEnd 0 1000001 (answers [(topics key_a 7 "go", [])]);
     LEnd 1 1000001 (answers [(ev_of key_c 3 10000 [], [])]); LEnd 2 1000002 (answers [(topics key_c 8 "coq", [])]); LStart FTopicList key_a 1000003 []] in
  exists s, lruns ok_all ok_all ok_all same same l [] s /\
    nth_error (ls_calls s) 0 = Some (mkCall FTopicList key_a (PDone (EList key_a (Some (topics key_a 7 "go")) [ITopic (B "go")]) false true)) /\
    nth_error (ls_calls s) 1 = Some (mkCall FMuteList key_c (PDone (EList key_c (Some (ev_of key_c 5 10000 [])) []) true true)) /\
    nth_error (ls_calls s) 3 = Some (mkCall FTopicList key_a (PDone (EList key_a (Some (topics key_a 7 "go")) [ITopic (B "go")]) true false)) /\
    (forall g k, asked_for s g k -> short_uint64 key_a = short_uint64 k -> k = key_a).
Proof.
  intro l. assert (E : exists s, happened l = Some s /\ map c_pk (ls_calls s) = [key_a; key_c; key_c; key_a] /\
    nth_error (ls_calls s) 0 = Some (mkCall FTopicList key_a (PDone (EList key_a (Some (topics key_a 7 "go")) [ITopic (B "go")]) false true)) /\
    nth_error (ls_calls s) 1 = Some (mkCall FMuteList key_c (PDone (EList key_c (Some (ev_of key_c 5 10000 [])) []) true true)) /\
    nth_error (ls_calls s) 3 = Some (mkCall FTopicList key_a (PDone (EList key_a (Some (topics key_a 7 "go")) [ITopic (B "go")]) true false))).
  { eexists. split; [vm_compute; reflexivity|]. repeat split; vm_compute; reflexivity. }
  destruct E as (s & H & K & N0 & N1 & N3). exists s. split; [split; [exact H|]|].
  - intros a HA. cbn [l In] in HA. repeat destruct HA as [<-|HA]; try destruct HA; try (apply answers_honest; intros x []); cbn [honest]; intros e HE; try destruct HE as [<-|[]]; try destruct HE. split; reflexivity.
  - split; [exact N0|]. split; [exact N1|]. split; [exact N3|]. intros g k (i & ph & N) Q. apply nth_error_In in N. apply (in_map c_pk) in N. rewrite K in N. cbn [c_pk In] in N. destruct N as [<-|[<-|[<-|[<-|[]]]]]; try reflexivity; exfalso; revert Q; vm_compute; discriminate.
Qed.
(** An attempt, recorded; two days later, the cache having dropped the list, the network is left alone, and after four days it is asked. *)
Example C122_days_example : exists s, happened [LStart FTopicList key_a 1000000 []; LEnd 0 1000000 (answers [(topics key_a 7 "go", [])]); LForget TopicListCache (short_uint64 key_a)] = Some s /\
  start_phase ok_all ok_all ok_all same same FTopicList key_a (1000000 + 2 * 86400) [topics key_a 7 "go"] s = PKeep (EList key_a (Some (topics key_a 7 "go")) [ITopic (B "go")]) /\
  start_phase ok_all ok_all ok_all same same FTopicList key_a (1000000 + 4 * 86400) [topics key_a 7 "go"] s = PNet [topics key_a 7 "go"].
Proof. eexists. split; [vm_compute; reflexivity|]. split; vm_compute; reflexivity. Qed.
(** Somebody else's list: the last four bytes of two keys agree. *)
Theorem C122_own_list_refuted : exists l s i pk v a b, lruns ok_all ok_all ok_all same same l [] s /\ nth_error (ls_calls s) i = Some (mkCall FTopicList pk (PDone v a b)) /\ ~ good ok_all ok_all ok_all same same FTopicList pk v.
Proof.
  pose (l := [LStart FTopicList key_a 1000000 []; LEnd 0 1000001 (answers [(topics key_a 7 "go", [])]); LStart FTopicList key_b 1000003 []]).
  assert (E : exists s, happened l = Some s /\ nth_error (ls_calls s) 1 = Some (mkCall FTopicList key_b (PDone (EList key_a (Some (topics key_a 7 "go")) [ITopic (B "go")]) true false))) by (eexists; split; vm_compute; reflexivity).
  destruct E as (s & H & N). exists l, s, 1, key_b. eexists _, _, _. split; [split; [exact H|]|split; [exact N|]].
  - intros a HA. cbn [l In] in HA. repeat destruct HA as [<-|HA]; try destruct HA; try (apply answers_honest; intros x []); cbn [honest]; intros e [].
  - cbn [good]. intros (_ & Q & _). revert Q. vm_compute. discriminate.
Qed.
(** The comment in list.go says that of several equal calls at once one asks the network and the others wait for its result. The lock is given back before
    the cache is read: they all ask. *)
Theorem C122_asked_once_refuted : exists f pk now s, happened [LStart f pk now []; LStart f pk now []; LStart f pk now []] = Some s /\ map c_phase (ls_calls s) = [PNet []; PNet []; PNet []].
Proof. exists FFollowList, key_a, 1000000%Z. eexists. split; vm_compute; reflexivity. Qed.
(** And then the last to end decides: an older list can take the place of a newer one in the cache, for six hours. *)
Theorem C122_newest_cached_refuted : exists l s old new, happened l = Some s /\ nth_error (ls_calls s) 0 = Some (mkCall FTopicList key_a (PDone (EList key_a (Some new) [ITopic (B "new")]) false true)) /\
  cache_get key_a (ls_caches s TopicListCache) = Some (EList key_a (Some old) [ITopic (B "old")]) /\ (ev_created_at old < ev_created_at new)%Z.
Proof.
  exists [LStart FTopicList key_a 1000000 []; LStart FTopicList key_a 1000000 []; LEnd 0 1000001 (answers [(topics key_a 9 "new", [])]); LEnd 1 1000002 (answers [(topics key_a 7 "old", [])])].
  eexists _, (topics key_a 7 "old"), (topics key_a 9 "new"). split; [vm_compute; reflexivity|]. split; [vm_compute; reflexivity|]. split; [vm_compute; reflexivity|]. cbn. lia.
Qed.
Print Assumptions C122_own_list_refuted. Print Assumptions C122_asked_once_refuted. Print Assumptions C122_newest_cached_refuted.
