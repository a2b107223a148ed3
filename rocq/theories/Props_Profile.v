(** C106: profiles. *)
From Verif Require Import Base FilterModel EventModel Bech32Model Bech32Proofs Nip19Model Nip19Proofs StoreModel StoreProofs HintsProofs TrackModel ListsModel ProfileModel Props_Sdk.
Import ListNotations.

Section Spec.
Variable unmarshal : str -> fields * bool.
Notation fetch := (fetch_profile unmarshal).
Notation run := (profiles unmarshal).
(** ** What a profile may show: an event, read as far as it can be; only a text that is read in full counts when it comes from the network. *)
Definition reads (e : event) : Prop := ev_kind e = 0%Z /\ snd (unmarshal (ev_content e)) = true.
Definition shows (e : event) (p : profile) : Prop := pm_event p = Some e /\ pm_fields p = (if (ev_kind e =? 0)%Z then fst (unmarshal (ev_content e)) else no_fields).
Definition shows_nothing (p : profile) : Prop := pm_event p = None /\ pm_fields p = no_fields.
(** The stored event, or what the network gave if it was asked and that is newer; without a stored event, what the network gave. *)
Definition chosen (pk : str) (stored : list event) (net : option event) (asked : bool) (p : profile) : Prop :=
  pm_pubkey p = pk /\
  match stored with
  | [] => asked = true /\ ((exists n, net = Some n /\ reads n /\ shows n p) \/ ((forall n, net = Some n -> ~ reads n) /\ shows_nothing p))
  | e :: _ => (exists n, asked = true /\ net = Some n /\ reads n /\ (ev_created_at e < ev_created_at n)%Z /\ shows n p) \/
              ((forall n, asked = true -> net = Some n -> reads n -> (ev_created_at n <= ev_created_at e)%Z) /\ shows e p)
  end.
Lemma parse_shows pk e : shows e (with_event e (with_pubkey pk (fst (parse_metadata unmarshal e)))) /\ pm_pubkey (with_event e (with_pubkey pk (fst (parse_metadata unmarshal e)))) = pk.
Proof. unfold parse_metadata, shows. destruct (ev_kind e =? 0)%Z; [destruct (unmarshal (ev_content e)) as [f ok]|]; repeat split. Qed.
Lemma parse_reads e : snd (parse_metadata unmarshal e) = true <-> reads e.
Proof. unfold parse_metadata, reads. destruct (Z.eqb_spec (ev_kind e) 0) as [K|K]; [destruct (unmarshal (ev_content e)) as [f ok]; cbn; tauto|]. cbn. split; [discriminate|tauto]. Qed.
Lemma network_spec pk net c m pub c' : try_network unmarshal pk net c = (m, pub, c') ->
  (exists n, net = Some n /\ reads n /\ pub = [n] /\ m = Some (with_event n (with_pubkey pk (fst (parse_metadata unmarshal n)))) /\ c' = cache_set pk (with_event n (with_pubkey pk (fst (parse_metadata unmarshal n)))) c) \/
  ((forall n, net = Some n -> ~ reads n) /\ pub = [] /\ m = None /\ c' = c).
Proof.
  unfold try_network. destruct net as [n|]; [|intro H; right; split; [intros n Q; discriminate|repeat split; congruence]]. pose proof (parse_reads n) as PR. destruct (parse_metadata unmarshal n) as [pm ok] eqn:PM. cbn [snd fst] in *. destruct ok; intro H; cbn beta iota zeta in H.
  - left. exists n. rewrite PM. cbn [fst]. assert (reads n) by (apply PR; reflexivity). split; [reflexivity|]. split; [assumption|]. repeat split; congruence.
  - right. assert (~ reads n) by (intro Q; apply PR in Q; discriminate). split; [intros m' Q; assert (m' = n) as -> by congruence; assumption|repeat split; congruence].
Qed.
Definition week : Z := (7 * 24 * 60 * 60)%Z.
Definition old_attempt (now : Z) (kv : list (str * str)) (pk : str) : Prop := forall key b t, last_fetch_key 0 pk = Ok key -> assoc key kv = Some b -> decode_ts b = Ok t -> (week < now - t)%Z.
(** One fetch: the cache if it has the key; if not, the newer of the stored event and the network's, which is asked when nothing is stored
    or a week has passed since the last attempt. What it returns is then in the cache, and what came from the network in the store. *)
Theorem C106_fetch now pk stored net s r s' : fetch now pk stored net s = Ok (r, s') ->
  match cache_get pk (ps_cache s) with
  | Some v => fp_profile r = v /\ fp_asked r = false /\ s' = s
  | None => chosen pk stored net (fp_asked r) (fp_profile r) /\ (fp_asked r = true <-> stored = [] \/ old_attempt now (ps_kv s) pk) /\
            cache_get pk (ps_cache s') = Some (fp_profile r) /\
            (forall n, In n (fp_published r) <-> fp_asked r = true /\ net = Some n /\ reads n)
  end.
Proof.
  unfold fetch_profile. destruct (cache_get pk (ps_cache s)) as [v|] eqn:CG; [intro H; injection H as <- <-; auto|].
  assert (CS : forall (c : list (Z * profile)) p, cache_get pk (cache_set pk p c) = Some p) by (intros c p; unfold cache_get, cache_set; cbn [find fst]; rewrite Z.eqb_refl; reflexivity).
  destruct stored as [|e rest].
  - destruct (try_network unmarshal pk net (ps_cache s)) as [[m pub] c] eqn:T. apply network_spec in T as [(n & -> & R & -> & -> & ->)|(N & -> & -> & ->)].
    + destruct (last_fetch_key 0 pk) as [key| |]; try discriminate. cbn [obind]. intro H. injection H as <- <-. cbn [fp_profile fp_asked fp_published ps_cache]. destruct (parse_shows pk n) as [S1 S2]. split; [|split; [|split]].
      * split; [exact S2|]. split; [reflexivity|]. left. eauto.
      * tauto.
      * apply CS.
      * intro n'. cbn [In]. split; [intros [<-|[]]; auto|intros (_ & Q & _); left; congruence].
    + intro H. injection H as <- <-. cbn [fp_profile fp_asked fp_published ps_cache]. split; [|split; [|split]].
      * split; [reflexivity|]. split; [reflexivity|]. right. split; [exact N|]. split; reflexivity.
      * tauto.
      * apply CS.
      * intro n. cbn [In]. split; [intros []|intros (_ & Q & R); exact (N n Q R)].
  - destruct (parse_shows pk e) as [S1 S2]. set (pm := with_event e _) in *. destruct (last_fetch_key 0 pk) as [key| |] eqn:LK; try discriminate. cbn [obind].
    assert (ST : forall b, stale 0 now (assoc key (ps_kv s)) = Ok b -> b = true <-> old_attempt now (ps_kv s) pk).
    { unfold stale, old_attempt. intros b. destruct (assoc key (ps_kv s)) as [x|] eqn:A.
      - destruct (decode_ts x) as [t| |] eqn:D; try discriminate. cbn [obind]. intro Q. injection Q as <-. rewrite Z.gtb_ltb, Z.ltb_lt. change (refresh_days 0 * 24 * 60 * 60)%Z with week. split.
        + intros L key' b' t' Q1 Q2 Q3. assert (key' = key) as -> by congruence. assert (b' = x) as -> by congruence. assert (t' = t) as -> by congruence. exact L.
        + intro Q. apply (Q key x t LK A D).
      - intro Q. injection Q as <-. split; [|reflexivity]. intros _ key' b' t' Q1 Q2. assert (key' = key) as -> by congruence. congruence. }
    destruct (stale 0 now (assoc key (ps_kv s))) as [b| |]; try discriminate. specialize (ST b eq_refl). cbn [obind]. destruct b.
    + destruct (try_network unmarshal pk net (ps_cache s)) as [[m pub] c] eqn:T. apply network_spec in T as [(n & -> & R & -> & -> & ->)|(N & -> & -> & ->)]; intro H; injection H as <- <-; cbn [fp_profile fp_asked fp_published ps_cache].
      * destruct (parse_shows pk n) as [N1 N2]. split; [|split; [|split]].
        -- rewrite Z.gtb_ltb. destruct (Z.ltb_spec (ev_created_at e) (ev_created_at n)) as [L|L]; split; try assumption; [left; eauto 9|right; split; [|exact S1]]. intros n' _ Q _. assert (n' = n) as -> by congruence. exact L.
        -- tauto.
        -- apply CS.
        -- intro n'. cbn [In]. split; [intros [<-|[]]; auto|intros (_ & Q & _); left; congruence].
      * split; [|split; [|split]].
        -- split; [exact S2|]. right. split; [|exact S1]. intros n _ Q R. exfalso. exact (N n Q R).
        -- tauto.
        -- apply CS.
        -- intro n. cbn [In]. split; [intros []|intros (_ & Q & R); exact (N n Q R)].
    + intro H. injection H as <- <-. cbn [fp_profile fp_asked fp_published ps_cache]. split; [|split; [|split]].
      * split; [exact S2|]. right. split; [|exact S1]. intros n Q. discriminate.
      * split; [discriminate|]. intros [Q|Q]; [discriminate|]. apply ST in Q. discriminate.
      * apply CS.
      * intro n. cbn [In]. split; [intros []|intros (Q & _); discriminate].
Qed.

(** ** A program that runs. Every profile it gets was chosen by a fetch, then or before, of a key with the same hash. *)
Definition cached_by (past : list pop) (h : Z) (p : profile) : Prop := exists now pk stored net asked, In (PFetch now pk stored net) past /\ short_uint64 pk = h /\ chosen pk stored net asked p.
Lemma fetch_cache now pk stored net s r s' h p : fetch now pk stored net s = Ok (r, s') -> In (h, p) (ps_cache s') -> In (h, p) (ps_cache s) \/ (h = short_uint64 pk /\ p = fp_profile r).
Proof.
  unfold fetch_profile. destruct (cache_get pk (ps_cache s)) as [v|] eqn:CG; [intro H; injection H as <- <-; auto|].
  assert (CS : forall (c : list (Z * profile)) q, In (h, p) (cache_set pk q c) -> (h = short_uint64 pk /\ p = q) \/ (In (h, p) c /\ h <> short_uint64 pk)).
  { intros c q. unfold cache_set. intros [Q|Q]; [left; split; congruence|]. apply filter_In in Q as [Q1 Q2]. right. split; [exact Q1|]. cbn [fst] in Q2. intros ->. rewrite Z.eqb_refl in Q2. discriminate. }
  assert (CC : forall (c : list (Z * profile)) q q', In (h, p) (cache_set pk q (cache_set pk q' c)) -> (h = short_uint64 pk /\ p = q) \/ In (h, p) c).
  { intros c q q' I. apply CS in I as [I|[I N]]; [auto|]. apply CS in I as [[E _]|[I _]]; [contradiction|auto]. }
  assert (C1 : forall (c : list (Z * profile)) q, In (h, p) (cache_set pk q c) -> (h = short_uint64 pk /\ p = q) \/ In (h, p) c) by (intros c q I; apply CS in I as [I|[I _]]; auto).
  destruct (try_network unmarshal pk net (ps_cache s)) as [[m pub] c] eqn:T. apply network_spec in T. destruct stored as [|e rest].
  - destruct T as [(n & -> & R & -> & -> & ->)|(N & -> & -> & ->)].
    + destruct (last_fetch_key 0 pk) as [key| |]; try discriminate. cbn [obind]. intro H. injection H as <- <-. cbn [ps_cache fp_profile]. intro I. apply CC in I. tauto.
    + intro H. injection H as <- <-. cbn [ps_cache fp_profile]. intro I. apply C1 in I. tauto.
  - destruct (last_fetch_key 0 pk) as [key| |]; try discriminate. cbn [obind]. destruct (stale 0 now (assoc key (ps_kv s))) as [[]| |]; try discriminate; cbn [obind].
    + destruct T as [(n & -> & R & -> & -> & ->)|(N & -> & -> & ->)]; intro H; injection H as <- <-; cbn [ps_cache fp_profile]; intro I; [apply CC in I|apply C1 in I]; tauto.
    + intro H. injection H as <- <-. cbn [ps_cache fp_profile]. intro I. apply C1 in I. tauto.
Qed.
Lemma run_spec ops : forall past s l s', (forall h p, In (h, p) (ps_cache s) -> cached_by past h p) -> run ops s = Ok (l, s') ->
  forall i fp, nth_error l i = Some (Some fp) -> exists now pk stored net, nth_error ops i = Some (PFetch now pk stored net) /\ cached_by (past ++ firstn (S i) ops) (short_uint64 pk) (fp_profile fp).
Proof.
  induction ops as [|o ops IH]; intros past s l s' HC H i fp N; cbn [profiles] in H; [injection H as <- <-; destruct i; discriminate|].
  assert (PA : forall k x, past ++ firstn (S (S k)) (x :: ops) = (past ++ [x]) ++ firstn (S k) ops) by (intros k x; rewrite <- app_assoc; reflexivity).
  assert (MONO : forall h p x, cached_by past h p -> cached_by (past ++ [x]) h p) by (intros h p x (n & k & st & ne & a & I & R); exists n, k, st, ne, a; split; [apply in_or_app; left; exact I|exact R]).
  destruct o as [now pk stored net|h0].
  - destruct (fetch now pk stored net s) as [[r s1]| |] eqn:F; try discriminate. cbn [obind] in H. destruct (run ops s1) as [[l1 s2]| |] eqn:R; try discriminate. cbn [obind] in H. assert (l = Some r :: l1) as -> by congruence.
    assert (HR : cached_by (past ++ [PFetch now pk stored net]) (short_uint64 pk) (fp_profile r)).
    { pose proof (C106_fetch _ _ _ _ _ _ _ F) as CF. destruct (cache_get pk (ps_cache s)) as [v|] eqn:G.
      - destruct CF as (-> & _). apply MONO. unfold cache_get in G. destruct (find _ _) as [[h p]|] eqn:FD; [|discriminate]. apply find_some in FD as [I E]. cbn [fst] in E. apply Z.eqb_eq in E. subst h. cbn [option_map snd] in G. assert (p = v) as -> by congruence. apply HC, I.
      - destruct CF as (CH & _). exists now, pk, stored, net, (fp_asked r). split; [apply in_or_app; right; left; reflexivity|]. split; [reflexivity|exact CH]. }
    destruct i as [|i].
    + cbn [nth_error] in *. assert (r = fp) as -> by congruence. exists now, pk, stored, net. split; [reflexivity|]. cbn [firstn]. exact HR.
    + cbn [nth_error] in N. cbn [nth_error]. rewrite PA. refine (IH _ s1 l1 s2 _ R i fp N). intros h p I. destruct (fetch_cache _ _ _ _ _ _ _ _ _ F I) as [I'|[-> ->]]; [apply MONO, HC, I'|exact HR].
  - destruct (run ops (mkPS (filter (fun e => negb (fst e =? h0)%Z) (ps_cache s)) (ps_kv s))) as [[l1 s2]| |] eqn:R; try discriminate. cbn [obind] in H. assert (l = None :: l1) as -> by congruence. destruct i as [|i]; [discriminate|]. cbn [nth_error] in *. rewrite PA. refine (IH _ _ l1 s2 _ R i fp N). cbn [ps_cache]. intros h p I. apply filter_In in I as [I _]. apply MONO, HC, I.
Qed.
Theorem C106_run ops kv l s' i fp : run ops (mkPS [] kv) = Ok (l, s') -> nth_error l i = Some (Some fp) ->
  exists now pk stored net j now' pk' stored' net' asked, nth_error ops i = Some (PFetch now pk stored net) /\ j <= i /\ nth_error ops j = Some (PFetch now' pk' stored' net') /\
    short_uint64 pk' = short_uint64 pk /\ chosen pk' stored' net' asked (fp_profile fp).
Proof.
  intros H N. destruct (run_spec ops [] (mkPS [] kv) l s' ltac:(intros h p []) H i fp N) as (now & pk & stored & net & O & now' & pk' & stored' & net' & asked & I & E & C).
  cbn [app] in I. apply In_nth_error in I as (j & J). assert (JL : j < length (firstn (S i) ops)) by (apply nth_error_Some; congruence). rewrite firstn_length in JL. exists now, pk, stored, net, j, now', pk', stored', net', asked. split; [exact O|]. split; [lia|]. split; [|auto].
  rewrite <- J. rewrite <- (firstn_skipn (S i) ops) at 1. apply nth_error_app1. rewrite firstn_length. lia.
Qed.
(** So when no two of the keys asked for have the same hash, each gets the profile of that key. Missing: the refutation below. *)
Theorem C106_own_profile_partial ops kv l s' i fp now pk stored net : run ops (mkPS [] kv) = Ok (l, s') -> nth_error l i = Some (Some fp) -> nth_error ops i = Some (PFetch now pk stored net) ->
  (forall n' k' st' ne', In (PFetch n' k' st' ne') ops -> short_uint64 k' = short_uint64 pk -> k' = pk) ->
  pm_pubkey (fp_profile fp) = pk /\ exists j now' stored' net' asked, j <= i /\ nth_error ops j = Some (PFetch now' pk stored' net') /\ chosen pk stored' net' asked (fp_profile fp).
Proof.
  intros H N O D. destruct (C106_run ops kv l s' i fp H N) as (n & k & st & ne & j & n' & k' & st' & ne' & asked & O' & L & J & E & C). assert (k = pk) as -> by congruence. assert (k' = pk) as -> by (eapply D; [eapply nth_error_In, J|exact E]). split; [apply C|]. exists j, n', st', ne', asked. auto.
Qed.

(** ** The network is left alone for a week after an attempt that was recorded, while something is stored. *)
Lemma ts_back now : (0 <= now < 2 ^ 32)%Z -> decode_ts (encode_ts now) = Ok now.
Proof.
  intro R. unfold encode_ts, put_be32, decode_ts, be32. rewrite Z.mod_small by lia. assert (Q : (Z.to_N now < 4294967296)%N) by lia. remember (Z.to_N now) as n eqn:EN. replace now with (Z.of_N n) by lia.
  rewrite !val_byte_of by (try apply N.mod_lt; try lia; apply N.div_lt_upper_bound; lia). f_equal. f_equal.
  pose proof (N.div_mod n 256 ltac:(lia)). pose proof (N.div_mod (n / 256) 256 ltac:(lia)). pose proof (N.div_mod (n / 65536) 256 ltac:(lia)). rewrite !N.div_div in * by lia. change (256 * 256)%N with 65536%N in *. change (65536 * 256)%N with 16777216%N in *. lia.
Qed.
Lemma fetch_kv now pk stored net s r s' : fetch now pk stored net s = Ok (r, s') -> ps_kv s' = ps_kv s \/ exists key, last_fetch_key 0 pk = Ok key /\ ps_kv s' = mset key (encode_ts now) (ps_kv s).
Proof.
  unfold fetch_profile. destruct (cache_get pk (ps_cache s)) as [v|]; [intro H; injection H as <- <-; auto|]. destruct (try_network unmarshal pk net (ps_cache s)) as [[m pub] c]. destruct stored as [|e rest].
  - destruct m as [m|]; [|intro H; injection H as <- <-; auto]. destruct (last_fetch_key 0 pk) as [key| |]; try discriminate. cbn [obind]. intro H. injection H as <- <-. right. exists key. auto.
  - destruct (last_fetch_key 0 pk) as [key| |] eqn:LK; try discriminate. cbn [obind]. destruct (stale 0 now (assoc key (ps_kv s))) as [[]| |]; try discriminate; cbn [obind]; intro H; injection H as <- <-; [right; exists key|]; auto.
Qed.
Lemma fetch_records now pk stored net s r s' : fetch now pk stored net s = Ok (r, s') -> fp_asked r = true -> (stored <> [] \/ exists n, net = Some n /\ reads n) -> exists key, last_fetch_key 0 pk = Ok key /\ ps_kv s' = mset key (encode_ts now) (ps_kv s).
Proof.
  unfold fetch_profile. destruct (cache_get pk (ps_cache s)) as [v|]; [intro H; injection H as <- <-; discriminate|]. destruct (try_network unmarshal pk net (ps_cache s)) as [[m pub] c] eqn:T. destruct stored as [|e rest].
  - apply network_spec in T as [(n & -> & R & -> & -> & ->)|(N & -> & -> & ->)].
    + destruct (last_fetch_key 0 pk) as [key| |]; try discriminate. cbn [obind]. intro H. injection H as <- <-. eauto.
    + intros _ _ [Q|(n & Q & R)]; [contradiction|]. exfalso. exact (N n Q R).
  - destruct (last_fetch_key 0 pk) as [key| |] eqn:LK; try discriminate. cbn [obind]. destruct (stale 0 now (assoc key (ps_kv s))) as [[]| |]; try discriminate; cbn [obind]; intro H; injection H as <- <-; cbn [fp_asked]; [eauto|discriminate].
Qed.
Lemma rest_spec ops : forall t0 key pk t1 s l s', last_fetch_key 0 pk = Ok key -> assoc key (ps_kv s) = Some (encode_ts t1) -> (t0 <= t1 < 2 ^ 32)%Z -> (0 <= t0)%Z ->
  (forall now k st ne, In (PFetch now k st ne) ops -> (t0 <= now < 2 ^ 32)%Z) -> run ops s = Ok (l, s') ->
  forall j now stored net fp, nth_error ops j = Some (PFetch now pk stored net) -> nth_error l j = Some (Some fp) -> stored <> [] -> fp_asked fp = true -> (week < now - t0)%Z.
Proof.
  induction ops as [|o ops IH]; intros t0 key pk t1 s l s' LK A R1 R0 T H j now stored net fp O N ST AS; [destruct j; discriminate|]. cbn [profiles] in H.
  destruct o as [now1 pk1 stored1 net1|h0].
  - destruct (fetch now1 pk1 stored1 net1 s) as [[r s1]| |] eqn:F; try discriminate. cbn [obind] in H. destruct (run ops s1) as [[l1 s2]| |] eqn:R; try discriminate. cbn [obind] in H. assert (l = Some r :: l1) as -> by congruence. destruct j as [|j]; cbn [nth_error] in O, N.
    + assert (now1 = now /\ pk1 = pk /\ stored1 = stored /\ net1 = net /\ r = fp) as (-> & -> & -> & -> & ->) by (repeat split; congruence). pose proof (C106_fetch _ _ _ _ _ _ _ F) as CF. destruct (cache_get pk (ps_cache s)) as [v|]; [destruct CF as (_ & Q & _); congruence|].
      destruct CF as (_ & Q & _). apply Q in AS as [AS|AS]; [contradiction|]. specialize (AS key (encode_ts t1) t1 LK A (ts_back t1 ltac:(lia))). lia.
    + assert (K : exists t2, assoc key (ps_kv s1) = Some (encode_ts t2) /\ (t0 <= t2 < 2 ^ 32)%Z).
      { destruct (fetch_kv _ _ _ _ _ _ _ F) as [E|(key1 & _ & E)]; rewrite E; [eauto|]. rewrite assoc_mset. destruct (seqb key key1); [|eauto]. exists now1. split; [reflexivity|]. apply (T now1 pk1 stored1 net1). left. reflexivity. }
      destruct K as (t2 & A2 & R2). refine (IH t0 key pk t2 s1 l1 s2 LK A2 R2 R0 _ R j now stored net fp O N ST AS). intros n k st ne I. apply (T n k st ne). right. exact I.
  - destruct (run ops (mkPS (filter (fun e => negb (fst e =? h0)%Z) (ps_cache s)) (ps_kv s))) as [[l1 s2]| |] eqn:R; try discriminate. cbn [obind] in H. assert (l = None :: l1) as -> by congruence. destruct j as [|j]; [discriminate|]. cbn [nth_error] in O, N.
    refine (IH t0 key pk t1 (mkPS (filter (fun e => negb (fst e =? h0)%Z) (ps_cache s)) (ps_kv s)) l1 s2 LK A R1 R0 _ R j now stored net fp O N ST AS). intros n k st ne I. apply (T n k st ne). right. exact I.
Qed.
Lemma run_app a b s l s' : run (a ++ b) s = Ok (l, s') -> exists l1 s1 l2, run a s = Ok (l1, s1) /\ run b s1 = Ok (l2, s') /\ l = l1 ++ l2 /\ length l1 = length a.
Proof.
  revert s l. induction a as [|o a IH]; intros s l H; cbn [app profiles] in *; [exists [], s, l; auto|]. destruct o as [now pk stored net|h].
  - destruct (fetch now pk stored net s) as [[r s1]| |]; try discriminate. cbn [obind] in *. destruct (run (a ++ b) s1) as [[l1 s2]| |] eqn:R; try discriminate. cbn [obind] in H. destruct (IH s1 l1 ltac:(rewrite R; congruence)) as (m1 & u & m2 & -> & Q2 & -> & LN). cbn [obind]. exists (Some r :: m1), u, m2. repeat split; [exact Q2|cbn [app]; congruence|cbn [length]; lia].
  - match type of H with obind ?x _ = _ => destruct x as [[l1 s2]| |] eqn:R; try discriminate end. cbn [obind] in H. destruct (IH _ l1 ltac:(rewrite R; congruence)) as (m1 & u & m2 & -> & Q2 & -> & LN). cbn [obind]. exists (None :: m1), u, m2. repeat split; [exact Q2|cbn [app]; congruence|cbn [length]; lia].
Qed.
(** The clock is before 2106 and does not go back below the first of the two. *)
Theorem C106_week ops kv l s' i j t0 pk stored0 net0 fp0 now stored net fp : run ops (mkPS [] kv) = Ok (l, s') -> i < j ->
  nth_error ops i = Some (PFetch t0 pk stored0 net0) -> nth_error l i = Some (Some fp0) -> fp_asked fp0 = true -> (stored0 <> [] \/ exists n, net0 = Some n /\ reads n) ->
  nth_error ops j = Some (PFetch now pk stored net) -> nth_error l j = Some (Some fp) -> fp_asked fp = true -> stored <> [] ->
  (0 <= t0)%Z -> (forall k n p st ne, i <= k -> nth_error ops k = Some (PFetch n p st ne) -> (t0 <= n < 2 ^ 32)%Z) -> (week < now - t0)%Z.
Proof.
  intros H L O0 N0 A0 R0 O1 N1 A1 S1 T0 T. destruct (nth_error_split ops i O0) as (a & b & -> & LA). destruct (run_app a (PFetch t0 pk stored0 net0 :: b) _ _ _ H) as (l1 & s1 & l2 & _ & H2 & -> & LL). cbn [profiles] in H2.
  destruct (fetch t0 pk stored0 net0 s1) as [[r s2]| |] eqn:F; try discriminate. cbn [obind] in H2. destruct (run b s2) as [[l3 s3]| |] eqn:R; try discriminate. cbn [obind] in H2. assert (l2 = Some r :: l3) as -> by congruence.
  rewrite nth_error_app2 in N0 by lia. replace (i - length l1) with 0 in N0 by lia. cbn [nth_error] in N0. assert (r = fp0) as -> by congruence.
  destruct (fetch_records _ _ _ _ _ _ _ F A0 R0) as (key & LK & KV). assert (TR : (t0 <= t0 < 2 ^ 32)%Z) by (apply (T i t0 pk stored0 net0); [lia|exact O0]).
  rewrite nth_error_app2 in O1, N1 by lia. replace (j - length a) with (S (j - S i)) in O1 by lia. replace (j - length l1) with (S (j - S i)) in N1 by lia. cbn [nth_error] in O1, N1.
  refine (rest_spec b t0 key pk t0 s2 l3 s3 LK _ TR T0 _ R (j - S i) now stored net fp O1 N1 S1 A1).
  - rewrite KV, assoc_mset, seqb_refl. reflexivity.
  - intros n p st ne I. apply In_nth_error in I as (k & K). apply (T (S (i + k)) n p st ne); [lia|]. rewrite nth_error_app2 by lia. replace (S (i + k) - length a) with (S k) by lia. exact K.
Qed.
End Spec.
Print Assumptions C106_fetch.
Print Assumptions C106_run.
Print Assumptions C106_own_profile_partial.
Print Assumptions C106_week.

(** ** The records of the last attempts do not mix: keys of 32 bytes and kinds below 2^32 give distinct keys. *)
Lemma le32_inj a b : (0 <= a < 2 ^ 32)%Z -> (0 <= b < 2 ^ 32)%Z -> le32 a = le32 b -> a = b.
Proof.
  intros Ha Hb H. rewrite <- (of_le32_le32 a Ha), <- (of_le32_le32 b Hb), H. reflexivity.
Qed.
Theorem C106_keys_distinct k1 k2 b1 b2 key : (0 <= k1 < 2 ^ 32)%Z -> (0 <= k2 < 2 ^ 32)%Z -> length b1 = 32 -> length b2 = 32 ->
  last_fetch_key k1 (hex_encode b1) = Ok key -> last_fetch_key k2 (hex_encode b2) = Ok key -> k1 = k2 /\ b1 = b2.
Proof.
  intros K1 K2 L1 L2. unfold last_fetch_key. rewrite (hex_prefix_decode _ _ (hex_decode_encode b1)), (hex_prefix_decode _ _ (hex_decode_encode b2)), L1, L2. cbn [Nat.ltb Nat.leb]. intros H1 H2. assert (E : B "f" ++ le32 k1 ++ b1 ++ repeat (byte_of 0) (33 - 32) = B "f" ++ le32 k2 ++ b2 ++ repeat (byte_of 0) (33 - 32)) by congruence.
  apply app_inv_head in E. assert (Q : le32 k1 = le32 k2 /\ b1 ++ repeat (byte_of 0) (33 - 32) = b2 ++ repeat (byte_of 0) (33 - 32)) by (apply app_split_len; [reflexivity|exact E]). destruct Q as [Q1 Q2]. split; [apply le32_inj; assumption|]. apply app_inv_tail in Q2. exact Q2.
Qed.
Print Assumptions C106_keys_distinct.
(** Where the time of the last attempt is kept; a key of more than 33 bytes ends the program. *)
Theorem C106_record_key kind b : (length b <= 33 -> last_fetch_key kind (hex_encode b) = Ok ("f"%char :: le32 kind ++ b ++ repeat "000"%char (33 - length b))) /\ (last_fetch_key kind (hex_encode b) = Panic <-> 33 < length b).
Proof.
  unfold last_fetch_key. rewrite (hex_prefix_decode _ _ (hex_decode_encode b)). destruct (Nat.ltb_spec 33 (length b)) as [Q|Q].
  - split; [lia|]. split; auto.
  - split; [reflexivity|]. split; [discriminate|lia].
Qed.
Print Assumptions C106_record_key.
Example C106_keys_example : exists key, last_fetch_key 10002 (hex_encode (repeat (byte_of 17) 32)) = Ok key /\ length key = 38. Proof. eexists. split; vm_compute; reflexivity. Qed.

(** ** Names. Of a key of 32 bytes the first seven and the last five characters of its npub are shown. *)
Lemma code_length prefix b t : to_code prefix b = Ok t -> length t = length prefix + 7 + (8 * length b + 4) / 5.
Proof.
  unfold to_code. destruct (groups_spec (nums_of b) (nums_lt b)) as (out & k & E & K & BT & F). rewrite E. cbn [obind]. unfold encode. destruct (forallb _ out); [|discriminate]. intro H. assert (Q : forall (x y : str), Ok x = Ok y -> y = x) by congruence. apply Q in H. subst t.
  rewrite app_length. cbn [length]. rewrite app_length, !map_length, checksum_length. apply (f_equal (@length bool)) in BT. rewrite app_length, !flat_bits_length, repeat_length in BT. unfold nums_of in BT. rewrite map_length in BT.
  assert (length out = (8 * length b + 4) / 5) as ->; [|lia]. apply Nat.div_unique with (r := 4 - k); lia.
Qed.
Lemma encode_hex_ok pk b : hex_decode pk = Some b -> exists t, encode_hex (B "npub") pk = Ok t /\ to_code (B "npub") b = Ok t.
Proof. intro D. destruct (to_code_decode (B "npub") b ltac:(apply plain; reflexivity)) as (t & T & _). exists t. split; [|exact T]. unfold encode_hex, from_hex. rewrite D. exact T. Qed.
Theorem C106_npub_short pk b : hex_decode pk = Some b -> length b = 32 -> exists code a m z, encode_public_key pk = Ok code /\ code = a ++ m ++ z /\ length a = 7 /\ length z = 5 /\ npub_short pk = Ok (a ++ B "…" ++ z).
Proof.
  intros D L. destruct (encode_hex_ok pk b D) as (t & T & TC). exists t, (firstn 7 t), (firstn 51 (skipn 7 t)), (skipn 58 t). pose proof (code_length _ _ _ TC) as CL. rewrite L in CL. change (length (B "npub") + 7 + (8 * 32 + 4) / 5) with 63 in CL. split; [exact T|]. split; [|split; [|split]].
  - replace (skipn 58 t) with (skipn 51 (skipn 7 t)). { rewrite firstn_skipn, firstn_skipn. reflexivity. } clear. do 7 (destruct t as [|? t]; [reflexivity|]). reflexivity.
  - rewrite firstn_length. lia.
  - rewrite skipn_length. lia.
  - unfold npub_short, npub. unfold encode_public_key in *. rewrite T. cbn [obind]. rewrite CL. reflexivity.
Qed.
(** For a key that is not hexadecimal, or shorter than 29 bytes, asking for its short form crashes. *)
Theorem C106_npub_short_crash pk : hex_decode pk = None \/ (exists b, hex_decode pk = Some b /\ length b < 29) <-> npub_short pk = Panic.
Proof.
  unfold npub_short, npub, encode_public_key. destruct (hex_decode pk) as [b|] eqn:D.
  - destruct (encode_hex_ok pk b D) as (t & T & TC). rewrite T. cbn [obind]. pose proof (code_length _ _ _ TC) as CL. change (length (B "npub") + 7) with 11 in CL. pose proof (Nat.div_mod (8 * length b + 4) 5 ltac:(lia)) as DM. pose proof (Nat.mod_upper_bound (8 * length b + 4) 5 ltac:(lia)) as MB.
    destruct (Nat.ltb_spec (length t) 7) as [L7|L7]; [lia|]. destruct (Nat.ltb_spec (length t) 58) as [L|L].
    + split; [reflexivity|]. intros _. right. exists b. split; [reflexivity|lia].
    + split; [|discriminate]. intros [Q|(b' & Q & L')]; [discriminate|]. assert (b' = b) as -> by congruence. lia.
  - unfold encode_hex, from_hex. rewrite D. cbn [obind]. split; [reflexivity|auto].
Qed.
(** The name, or else the other name, or else the short form of the key. *)
Theorem C106_short_name p b : hex_decode (pm_pubkey p) = Some b -> length b = 32 -> exists s, short_name p = Ok s /\ s <> [] /\
  (s = fl_name (pm_fields p) \/ (fl_name (pm_fields p) = [] /\ s = fl_display (pm_fields p)) \/ (fl_name (pm_fields p) = [] /\ fl_display (pm_fields p) = [] /\ npub_short (pm_pubkey p) = Ok s)).
Proof.
  intros D L. unfold short_name. destruct (fl_name (pm_fields p)) as [|c r]; [|eexists; split; [reflexivity|split; [discriminate|auto]]]. destruct (fl_display (pm_fields p)) as [|c r]; [|eexists; split; [reflexivity|split; [discriminate|auto]]].
  destruct (C106_npub_short _ _ D L) as (code & a & m & z & _ & _ & LA & _ & E). eexists. split; [exact E|]. split; [|auto]. destruct a; discriminate.
Qed.
Print Assumptions C106_npub_short. Print Assumptions C106_npub_short_crash. Print Assumptions C106_short_name.
Definition pk1 : str := hex_encode (repeat (byte_of 17) 32).
Example C106_short_example : npub_short pk1 = Ok (B "npub1zy" ++ ellipsis ++ B "4sl3h"). Proof. vm_compute. reflexivity. Qed.

(** ** Checking an identifier. Each answer is that of the last query, which is at most a week old; queries are more than a week apart. *)
Definition says (p : profile) (q : str -> option str) : bool := match q (fl_nip05 (pm_fields p)) with Some pk => seqb pk (pm_pubkey p) | None => false end.
(** Without an identifier every answer is no, and nobody is asked. *)
Theorem C106_nip05_none calls p : fl_nip05 (pm_fields p) = [] -> nip05_calls calls p = repeat (false, false) (length calls).
Proof. intro H. induction calls as [|[now q] calls IH]; [reflexivity|]. cbn [nip05_calls length repeat]. unfold nip05_valid at 1. rewrite H, IH. reflexivity. Qed.
Print Assumptions C106_nip05_none.
Lemma nip05_held calls : forall p t, fl_nip05 (pm_fields p) <> [] -> pm_nip05_last p = Some t -> forall i v a, nth_error (nip05_calls calls p) i = Some (v, a) -> exists now q, nth_error calls i = Some (now, q) /\
  ((a = true /\ v = says p q /\ ((forall k w c, k < i -> nth_error (nip05_calls calls p) k = Some (w, c) -> c = false) -> (now - t > week)%Z)) \/
   (a = false /\ (((forall k w c, k < i -> nth_error (nip05_calls calls p) k = Some (w, c) -> c = false) /\ v = pm_nip05_valid p /\ (now - t <= week)%Z) \/
     exists j nowj qj w, j < i /\ nth_error calls j = Some (nowj, qj) /\ nth_error (nip05_calls calls p) j = Some (w, true) /\ (forall k w c, j < k < i -> nth_error (nip05_calls calls p) k = Some (w, c) -> c = false) /\ v = says p qj /\ (now - nowj <= week)%Z))).
Proof.
  induction calls as [|[now q] calls IH]; intros p t NE LT i v a H; [destruct i; discriminate|]. cbn [nip05_calls] in *. destruct (nip05_valid now q p) as [[v0 a0] p0] eqn:E. unfold nip05_valid in E. rewrite LT in E. destruct (fl_nip05 (pm_fields p)) as [|c0 r0] eqn:ID; [contradiction|].
  destruct (Z.ltb_spec t (now - 7 * 86400)) as [L|L].
  - assert (v0 = says p q /\ a0 = true /\ p0 = mkPM (pm_pubkey p) (pm_event p) (pm_fields p) v0 (Some now)) as (V0 & -> & P0) by (unfold says; rewrite ID; repeat split; congruence). assert (SP : forall q', says p0 q' = says p q') by (intro q'; rewrite P0; reflexivity). destruct i as [|i]; cbn [nth_error] in H.
    + exists now, q. split; [reflexivity|]. left. assert (v = v0 /\ a = true) as [-> ->] by (split; congruence). split; [reflexivity|]. split; [exact V0|]. intros _. unfold week. lia.
    + destruct (IH p0 now ltac:(rewrite P0; cbn [pm_fields]; congruence) ltac:(rewrite P0; reflexivity) i v a H) as (n & q1 & N & C). exists n, q1. split; [exact N|]. destruct C as [(-> & -> & C)|(-> & C)].
      * left. split; [reflexivity|]. split; [apply SP|]. intro F. exfalso. specialize (F 0 v0 true ltac:(lia) eq_refl). discriminate.
      * right. split; [reflexivity|]. right. destruct C as [(F & -> & W)|(j & nj & qj & w & J & N1 & N2 & F & -> & W)].
        -- exists 0, now, q, v0. split; [lia|]. split; [reflexivity|]. split; [reflexivity|]. split; [|split; [|exact W]].
           ++ intros k w c K Q. destruct k as [|k]; [lia|]. cbn [nth_error] in Q. apply (F k w c); [lia|exact Q].
           ++ rewrite P0. cbn [pm_nip05_valid]. exact V0.
        -- exists (S j), nj, qj, w. split; [lia|]. split; [exact N1|]. split; [exact N2|]. split; [|split; [apply SP|exact W]]. intros k w' c K Q. destruct k as [|k]; [lia|]. cbn [nth_error] in Q. apply (F k w' c); [lia|exact Q].
  - assert (v0 = pm_nip05_valid p /\ a0 = false /\ p0 = p) as (V0 & -> & ->) by (repeat split; congruence). destruct i as [|i]; cbn [nth_error] in H.
    + exists now, q. split; [reflexivity|]. right. assert (v = v0 /\ a = false) as [-> ->] by (split; congruence). split; [reflexivity|]. left. split; [intros k w c K; lia|]. split; [exact V0|]. unfold week. lia.
    + destruct (IH p t ltac:(congruence) LT i v a H) as (n & q1 & N & C). exists n, q1. split; [exact N|]. destruct C as [(-> & -> & C)|(-> & C)].
      * left. split; [reflexivity|]. split; [reflexivity|]. intro F. apply C. intros k w c K Q. apply (F (S k) w c); [lia|exact Q].
      * right. split; [reflexivity|]. destruct C as [(F & -> & W)|(j & nj & qj & w & J & N1 & N2 & F & -> & W)].
        -- left. split; [|split; [reflexivity|exact W]]. intros [|k] w c K Q; cbn [nth_error] in Q; [congruence|]. apply (F k w c); [lia|exact Q].
        -- right. exists (S j), nj, qj, w. split; [lia|]. split; [exact N1|]. split; [exact N2|]. split; [|split; [reflexivity|exact W]]. intros [|k] w' c K Q; [lia|]. cbn [nth_error] in Q. apply (F k w' c); [lia|exact Q].
Qed.
(** For a profile that has not been checked yet. *)
Theorem C106_nip05 calls p i v a : fl_nip05 (pm_fields p) <> [] -> pm_nip05_last p = None -> nth_error (nip05_calls calls p) i = Some (v, a) ->
  exists now q j nowj qj w, j <= i /\ nth_error calls i = Some (now, q) /\ nth_error calls j = Some (nowj, qj) /\ nth_error (nip05_calls calls p) j = Some (w, true) /\
    (forall k w c, j < k <= i -> nth_error (nip05_calls calls p) k = Some (w, c) -> c = false) /\ v = says p qj /\ (a = true <-> j = i) /\ (j <> i -> now - nowj <= week)%Z.
Proof.
  intros NE NL H. destruct calls as [|[now0 q0] calls]; [destruct i; discriminate|]. cbn [nip05_calls] in *. destruct (nip05_valid now0 q0 p) as [[v0 a0] p0] eqn:E. unfold nip05_valid in E. rewrite NL in E. destruct (fl_nip05 (pm_fields p)) as [|c0 r0] eqn:ID; [contradiction|].
  assert (v0 = says p q0 /\ a0 = true /\ p0 = mkPM (pm_pubkey p) (pm_event p) (pm_fields p) v0 (Some now0)) as (V0 & -> & P0) by (unfold says; rewrite ID; repeat split; congruence). assert (SP : forall q', says p0 q' = says p q') by (intro q'; rewrite P0; reflexivity).
  destruct i as [|i]; cbn [nth_error] in H.
  - exists now0, q0, 0, now0, q0, v0. assert (v = v0 /\ a = true) as [-> ->] by (split; congruence). split; [lia|]. split; [reflexivity|]. split; [reflexivity|]. split; [reflexivity|]. split; [intros k w c K; lia|]. split; [exact V0|]. split; [tauto|]. lia.
  - destruct (nip05_held calls p0 now0 ltac:(rewrite P0; cbn [pm_fields]; congruence) ltac:(rewrite P0; reflexivity) i v a H) as (n & q1 & N & C).
    destruct C as [(-> & -> & C)|(-> & C)].
    + exists n, q1, (S i), n, q1, (says p0 q1). split; [lia|]. split; [exact N|]. split; [exact N|]. split; [cbn [nth_error]; exact H|]. split; [intros k w c K; lia|]. split; [apply SP|]. split; [tauto|]. lia.
    + destruct C as [(F & -> & W)|(j & nj & qj & w & J & N1 & N2 & F & -> & W)].
      * exists n, q1, 0, now0, q0, v0. split; [lia|]. split; [exact N|]. split; [reflexivity|]. split; [reflexivity|]. split; [|split; [rewrite P0; exact V0|split; [split; [discriminate|lia]|intros _; exact W]]]. intros [|k] w c K Q; [lia|]. cbn [nth_error] in Q. destruct (Nat.eq_dec k i) as [->|NK]; [congruence|]. apply (F k w c); [lia|exact Q].
      * exists n, q1, (S j), nj, qj, w. split; [lia|]. split; [exact N|]. split; [exact N1|]. split; [exact N2|]. split; [|split; [apply SP|split; [split; [discriminate|lia]|intros _; exact W]]]. intros [|k] w' c K Q; [lia|]. cbn [nth_error] in Q. destruct (Nat.eq_dec k i) as [->|NK]; [congruence|]. apply (F k w' c); [lia|exact Q].
Qed.
Print Assumptions C106_nip05.
(** Two queries with none between them are more than a week apart. *)
Lemma nip05_skip calls : forall p j, fl_nip05 (pm_fields p) <> [] -> j <= length calls -> exists p', fl_nip05 (pm_fields p') = fl_nip05 (pm_fields p) /\ pm_pubkey p' = pm_pubkey p /\ skipn j (nip05_calls calls p) = nip05_calls (skipn j calls) p'.
Proof.
  induction calls as [|[now q] calls IH]; intros p j NE L; [exists p; destruct j; auto|]. destruct j as [|j]; [exists p; auto|]. cbn [nip05_calls skipn]. destruct (nip05_valid now q p) as [[v a] p0] eqn:E.
  assert (S0 : pm_fields p0 = pm_fields p /\ pm_pubkey p0 = pm_pubkey p). { unfold nip05_valid in E. destruct (fl_nip05 (pm_fields p)); [contradiction|]. destruct (match pm_nip05_last p with None => true | Some t => (t <? now - 7 * 86400)%Z end); assert (Q : forall (x y : bool * bool * profile), x = y -> snd x = snd y) by congruence; apply Q in E; cbn [snd] in E; subst p0; auto. }
  destruct S0 as [S1 S2]. cbn [skipn]. cbn [length] in L. destruct (IH p0 j ltac:(rewrite S1; exact NE) ltac:(lia)) as (p' & P1 & P2 & P3). exists p'. rewrite P1, P2, S1, S2. auto.
Qed.
Lemma nth_error_skip {A} (l : list A) : forall n k, nth_error (skipn n l) k = nth_error l (n + k).
Proof. induction l as [|x l IH]; intros [|n] k; try reflexivity; [destruct k; reflexivity|]. cbn [skipn plus nth_error]. apply IH. Qed.
Theorem C106_nip05_queries calls p i j nowi nowj qi qj v w : fl_nip05 (pm_fields p) <> [] -> j < i -> nth_error calls j = Some (nowj, qj) -> nth_error calls i = Some (nowi, qi) ->
  nth_error (nip05_calls calls p) j = Some (w, true) -> nth_error (nip05_calls calls p) i = Some (v, true) -> (forall k u c, j < k < i -> nth_error (nip05_calls calls p) k = Some (u, c) -> c = false) -> (week < nowi - nowj)%Z.
Proof.
  intros NE L CJ CI RJ RI F. assert (LJ : j < length calls) by (apply nth_error_Some; congruence). destruct (nip05_skip calls p j NE ltac:(lia)) as (p1 & P1 & _ & P3).
  destruct (skipn j calls) as [|[n0 q0] rest] eqn:SK; [apply (f_equal (@length _)) in SK; rewrite skipn_length in SK; cbn in SK; lia|].
  assert (E0 : (n0, q0) = (nowj, qj)). { pose proof (nth_error_skip calls j 0) as Q. rewrite SK, Nat.add_0_r, CJ in Q. cbn [nth_error] in Q. congruence. } assert (n0 = nowj /\ q0 = qj) as [-> ->] by (split; congruence).
  assert (G : forall k, nth_error (nip05_calls calls p) (j + k) = nth_error (nip05_calls ((nowj, qj) :: rest) p1) k) by (intro k; rewrite <- nth_error_skip, P3; reflexivity).
  pose proof (G 0) as G0. rewrite Nat.add_0_r, RJ in G0. cbn [nip05_calls] in *. destruct (nip05_valid nowj qj p1) as [[v0 a0] p0] eqn:E. cbn [nth_error] in G0. assert (a0 = true) as -> by congruence. unfold nip05_valid in E. destruct (fl_nip05 (pm_fields p1)) as [|c0 r0] eqn:ID; [rewrite <- P1 in NE; contradiction|].
  assert (P0 : p0 = mkPM (pm_pubkey p1) (pm_event p1) (pm_fields p1) v0 (Some nowj)) by (destruct (match pm_nip05_last p1 with None => true | Some t => (t <? nowj - 7 * 86400)%Z end); congruence).
  assert (H : nth_error (nip05_calls rest p0) (i - S j) = Some (v, true)) by (pose proof (G (S (i - S j))) as Q; replace (j + S (i - S j)) with i in Q by lia; rewrite RI in Q; cbn [nth_error] in Q; congruence).
  destruct (nip05_held rest p0 nowj ltac:(rewrite P0; cbn [pm_fields]; congruence) ltac:(rewrite P0; reflexivity) (i - S j) v true H) as (n & q & N & C). assert (N' : nth_error calls i = Some (n, q)). { pose proof (nth_error_skip calls j (S (i - S j))) as Q. rewrite SK in Q. replace (j + S (i - S j)) with i in Q by lia. cbn [nth_error] in Q. congruence. }
  assert (n = nowi) as -> by congruence. destruct C as [(_ & _ & C)|(Q & _)]; [|discriminate]. enough ((nowi - nowj > week)%Z) by lia. apply C. intros k u c K Q. apply (F (j + S k) u c); [lia|]. rewrite G. cbn [nth_error]. exact Q.
Qed.
Print Assumptions C106_nip05_queries.
(** The identifier of a person stays invalid for a week when the server could not be reached once. *)
Definition pm1 : profile := mkPM pk1 None (mkFields [] [] [] [] [] [] (B "bob@example.com") []) false None.
Example C106_nip05_example : nip05_calls [(1000, fun _ => Some pk1); (2000, fun _ => None); (1000 + 7 * 86400 + 1, fun _ => None); (1000 + 7 * 86400 + 2, fun _ => Some pk1)]%Z pm1 = [(true, true); (true, false); (false, true); (false, false)].
Proof. vm_compute. reflexivity. Qed.
Theorem C106_nip05_outage_refuted : exists p t, nip05_calls [(t, fun _ => None); (t + 604800, fun _ => Some (pm_pubkey p))]%Z p = [(false, true); (false, false)].
Proof. exists pm1, 1000%Z. vm_compute. reflexivity. Qed.
Print Assumptions C106_nip05_outage_refuted.

(** ** Inputs: the hints saved are those of the pointer that the input stands for (C81), less the virtual ones. *)
Theorem C106_input normalize testing nip05 now input hs pk : profile_from_input normalize testing nip05 now input = Ok (hs, pk) ->
  exists p, input_to_profile nip05 input = Ok (Some p) /\ pk = pp_pubkey p /\ forall h, In h hs <-> exists l u, pp_relays p = Some l /\ In u l /\ is_virtual testing u = false /\ h = (pk, normalize u, 3, now).
Proof.
  unfold profile_from_input. destruct (input_to_profile nip05 input) as [[p|]| |]; try discriminate. cbn [obind]. intro H. assert (Q : forall (a c : list hsave) (b d : str), Ok (a, b) = Ok (c, d) -> c = a /\ d = b) by (intros; split; congruence). apply Q in H as [-> ->]. exists p. split; [reflexivity|]. split; [reflexivity|].
  intro h. rewrite in_flat_map. unfold LastInHint. split.
  - intros (u & I & H). destruct (pp_relays p) as [l|]; [|destruct I]. exists l, u. destruct (is_virtual testing u); [destruct H|]. destruct H as [<-|[]]. auto.
  - intros (l & u & -> & I & V & ->). exists u. split; [exact I|]. rewrite V. left. reflexivity.
Qed.
Print Assumptions C106_input.
(** Input that names nobody is an error; nothing but reading the input can crash. *)
Theorem C106_input_fails normalize testing nip05 now input : (profile_from_input normalize testing nip05 now input = Panic <-> input_to_profile nip05 input = Panic) /\
  (input_to_profile nip05 input = Ok None -> profile_from_input normalize testing nip05 now input = Err).
Proof. unfold profile_from_input. destruct (input_to_profile nip05 input) as [[p|]| |]; cbn [obind]; (split; [split|]); try discriminate; reflexivity. Qed.
Print Assumptions C106_input_fails.

(** ** A case, and what goes wrong. *)
Definition demo_unmarshal (s : str) : fields * bool := match s with [] => (no_fields, false) | _ => (mkFields s [] [] [] [] [] [] [], true) end.
Definition prof (pk : str) (t : Z) (name : str) : event := mkEvent (B "id") pk t 0 [] name [].
Example C106_run_example : exists l s, profiles demo_unmarshal [PFetch 100 pk1 [] (Some (prof pk1 5 (B "bob"))); PFetch 200 pk1 [] None; PForget (short_uint64 pk1); PFetch 300 pk1 [prof pk1 5 (B "bob")] (Some (prof pk1 9 (B "rob"))); PForget (short_uint64 pk1); PFetch 700000 pk1 [prof pk1 5 (B "bob")] (Some (prof pk1 9 (B "rob")))] (mkPS [] []) = Ok (l, s) /\
  map (option_map (fun r => (fl_name (pm_fields (fp_profile r)), fp_asked r))) l = [Some (B "bob", true); Some (B "bob", false); None; Some (B "bob", false); None; Some (B "rob", true)].
Proof. do 2 eexists. split; vm_compute; reflexivity. Qed.
(** Two people whose keys end alike: the second is shown the profile, and the key, of the first. *)
Definition pk2 : str := hex_encode (repeat (byte_of 34) 28 ++ repeat (byte_of 17) 4).
Theorem C106_own_profile_refuted : exists ops l s r, profiles demo_unmarshal ops (mkPS [] []) = Ok (l, s) /\ nth_error ops 1 = Some (PFetch 200 pk2 [prof pk2 5 (B "bob")] None) /\ nth_error l 1 = Some (Some r) /\ pm_pubkey (fp_profile r) = pk1 /\ pk1 <> pk2 /\ fl_name (pm_fields (fp_profile r)) = B "eve".
Proof. exists [PFetch 100 pk1 [] (Some (prof pk1 5 (B "eve"))); PFetch 200 pk2 [prof pk2 5 (B "bob")] None]. do 3 eexists. split; [vm_compute; reflexivity|]. split; [reflexivity|]. split; [reflexivity|]. split; [reflexivity|]. split; [vm_compute; discriminate|reflexivity]. Qed.
Print Assumptions C106_own_profile_refuted.
(** A stored event that cannot be read hides the network's answer unless that is newer, and is shown with empty fields. *)
Theorem C106_unreadable_refuted : exists stored net r s, fetch_profile demo_unmarshal 100 pk1 [stored] (Some net) (mkPS [] []) = Ok (r, s) /\ ~ reads demo_unmarshal stored /\ reads demo_unmarshal net /\ pm_event (fp_profile r) = Some stored /\ pm_fields (fp_profile r) = no_fields.
Proof. exists (prof pk1 5 []), (prof pk1 5 (B "bob")). do 2 eexists. split; [vm_compute; reflexivity|]. split; [intros [_ Q]; discriminate|]. split; [split; reflexivity|]. split; reflexivity. Qed.
Print Assumptions C106_unreadable_refuted.
(** Nobody was found, nothing is named: asking for a name crashes when the key is not one. *)
Theorem C106_short_name_refuted : exists pk r s, fetch_profile demo_unmarshal 100 pk [] None (mkPS [] []) = Ok (r, s) /\ short_name (fp_profile r) = Panic.
Proof. exists (B "bob"). do 2 eexists. split; [reflexivity|]. vm_compute. reflexivity. Qed.
Print Assumptions C106_short_name_refuted.
(** An odd key crashes the fetch of a stored profile: its record needs a key of at most 33 bytes. *)
Theorem C106_long_key_refuted : exists pk e, fetch_profile demo_unmarshal 100 pk [e] None (mkPS [] []) = Panic.
Proof. exists (hex_encode (repeat (byte_of 1) 34)), (prof pk1 5 (B "bob")). vm_compute. reflexivity. Qed.
Print Assumptions C106_long_key_refuted.

Print Assumptions C106_npub_short_crash.
Print Assumptions C106_short_name.
