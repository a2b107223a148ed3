(** C50-C54: the relay pool under every schedule. *)
From Verif Require Import Base Machine PoolModel PoolProofs Props_Sub.
From Coq Require Import Permutation.
Import ListNotations.

(** ** C50. A query over [n] relays; [history] lists what happened in order. *)
Definition q_history (s : qstate) : list qobs := rev (q_log s).
Lemma q_hist_ok n s h1 o h2 : query_reachable n s -> q_history s = h1 ++ o :: h2 -> ok_qobs o (rev h1).
Proof. intros R H. apply (in_order_rev ok_qobs (q_log s) h1 o h2); [exact (qi_order s (query_inv n s R))|exact H]. Qed.
Lemma q_in s o : In o (q_history s) <-> In o (q_log s). Proof. unfold q_history. symmetry. apply in_rev. Qed.

(** How often an id was put on the channel. *)
Definition times_delivered (id : str) (h : list qobs) : nat := length (filter (fun o => match o with ODeliver _ x => seqb x id | _ => false end) h).
Lemma cnt_filter {X} (f : X -> bool) l : cnt f l = length (filter f l).
Proof. induction l as [|x l IH]; [reflexivity|]. cbn. rewrite IH. destruct (f x); reflexivity. Qed.
Lemma filter_rev_length {X} (f : X -> bool) l : length (filter f (rev l)) = length (filter f l).
Proof. rewrite <- !cnt_filter. induction l as [|x l IH]; [reflexivity|]. cbn [rev]. rewrite cnt_app, IH. cbn. lia. Qed.
Lemma times_delivered_log id s : times_delivered id (q_history s) = delivered id (q_log s).
Proof. unfold times_delivered, q_history, delivered. rewrite filter_rev_length, <- cnt_filter. reflexivity. Qed.

(** Each id reaches the caller at most once, whichever relays sent it. *)
Theorem C50_at_most_once n s id : query_reachable n s -> times_delivered id (q_history s) <= 1.
Proof. intro R. rewrite times_delivered_log. pose proof (qi_once s (query_inv n s R) id) as O. unfold total in O. destruct (existsb _ _); cbn [one] in O; lia. Qed.
(** Only what a relay sent, matching and signed, reaches the caller, and after it was sent. *)
Theorem C50_only_sent n s h1 i id h2 : query_reachable n s -> q_history s = h1 ++ ODeliver i id :: h2 -> exists late, In (OMsg i id true late) h1.
Proof. intros R H. destruct (q_hist_ok _ _ _ _ _ R H) as [_ [l Q]]. exists l. rewrite <- in_rev in Q. exact Q. Qed.
(** The channel is closed at most once, nothing is sent on it afterwards, and at that time every relay's goroutine has returned. *)
Theorem C50_closed_last n s h1 h2 : query_reachable n s -> q_history s = h1 ++ OClose :: h2 ->
  ~ In OClose h1 /\ ~ In OClose h2 /\ (forall i id, ~ In (ODeliver i id) h2) /\ forallb is_done (q_relays s) = true.
Proof.
  intros R H. pose proof (query_inv n s R) as I. split; [|split; [|split]].
  - intro Q. apply (q_hist_ok _ _ _ _ _ R) in H. apply H. rewrite <- in_rev. exact Q.
  - intro Q. apply in_split in Q as (g1 & g2 & ->). replace (h1 ++ OClose :: g1 ++ OClose :: g2) with ((h1 ++ OClose :: g1) ++ OClose :: g2) in H by (rewrite <- app_assoc; reflexivity).
    apply (q_hist_ok _ _ _ _ _ R) in H. apply H. rewrite <- in_rev. apply in_or_app. right. left. reflexivity.
  - intros i id Q. apply in_split in Q as (g1 & g2 & ->). replace (h1 ++ OClose :: g1 ++ ODeliver i id :: g2) with ((h1 ++ OClose :: g1) ++ ODeliver i id :: g2) in H by (rewrite <- app_assoc; reflexivity).
    apply (q_hist_ok _ _ _ _ _ R) in H. apply H. rewrite <- in_rev. apply in_or_app. right. left. reflexivity.
  - apply (qi_closed s I), (qi_log s I), q_in. rewrite H. apply in_or_app. right. left. reflexivity.
Qed.
(** Every id that some relay sent has been delivered when the channel is closed. Missing: the ids for which one of the messages was
    bad (not matching or not signed) or came after that relay's EOSE; and runs in which the caller cancelled or a relay ended early.
    See the refutations below. *)
Theorem C50_all_delivered_partial n s i id good late : query_reachable n s -> In OClose (q_history s) -> In (OMsg i id good late) (q_history s) ->
  ~ In OCancel (q_history s) -> (forall j, ~ In (OEarly j) (q_history s)) ->
  (forall j g l, In (OMsg j id g l) (q_history s) -> g = true /\ l = false) ->
  times_delivered id (q_history s) = 1.
Proof.
  intros R HC HM N1 N2 N3. pose proof (query_inv n s R) as I. pose proof (C50_at_most_once n s id R) as U.
  rewrite q_in in *. pose proof (qi_seen s I _ _ _ _ HM) as HS.
  assert (NE : ~ excused id (q_log s)). { intros [Q|[[j Q]|(j & g & l & Q1 & Q2)]]; [exact (N1 Q)|apply (N2 j); rewrite q_in; exact Q|]. rewrite <- q_in in Q1. apply N3 in Q1. destruct Q1, Q2; congruence. }
  destruct (qi_all s I id HS) as [Q|Q]; [contradiction|]. rewrite times_delivered_log in *. unfold total in Q.
  assert (Z : c_total (held true id) (q_relays s) = 0); [|lia]. apply c_total_zero. intros r Hr.
  apply (qi_log s I) in HC. pose proof (qi_closed s I HC) as D. rewrite forallb_forall in D. specialize (D r Hr). apply In_nth_error in Hr as [k Hr].
  destruct (qi_done s I k r Hr D) as [[P1 P2]|[P|[j P]]]; [|contradiction|exfalso; apply (N2 j); rewrite q_in; exact P].
  unfold held, is_done in *. destruct (rq_ph r); try discriminate. clear - P1. induction (rq_pending r) as [|[x b] l IH]; [reflexivity|]. cbn [existsb snd] in P1. apply orb_false_iff in P1 as [-> P1].
  specialize (IH P1). cbn [cnt fst snd negb orb] in *. rewrite andb_false_r. lia.
Qed.
(** The pool's own moves come to an end, and when none is left and every relay has given its EOSE or is done, the channel is closed. *)
Theorem C50_moves_end a s s' : q_internal a = true -> query_step a s = Some s' -> q_weight s' < q_weight s.
Proof. apply query_weight. Qed.
Theorem C50_closes n s : query_reachable n s -> (forall a, q_internal a = true -> query_step a s = None) ->
  (forall i r, nth_error (q_relays s) i = Some r -> is_connecting r = false /\ (rq_eose r = true \/ is_done r = true)) -> In OClose (q_history s).
Proof. intros R Q W. pose proof (query_inv n s R) as I. rewrite q_in. apply (qi_log s I). exact (query_quiet s I Q W). Qed.

(** A run with two relays, three ids, one of them from both relays. *)
Definition C50_run : list qaction :=
  [YStart 0 true; YStart 1 true; YMsg 0 (B "a") true; YMsg 1 (B "b") true; YMsg 1 (B "a") true; YMsg 0 (B "c") true; YEose 1; YTake 0 1; YDeliver 0;
   YEose 0; YTake 1 0; YDeliver 1; YEnd 1; YTake 0 0; YDeliver 0; YEnd 0; YWait].
Example C50_example : exists s, exec query_step C50_run (query_init 2) = Some s /\ In OClose (q_history s) /\ ~ In OCancel (q_history s) /\
  filter (fun o => match o with ODeliver _ _ => true | _ => false end) (q_history s) = [ODeliver 0 (B "c"); ODeliver 1 (B "b"); ODeliver 0 (B "a")].
Proof. eexists. split; [vm_compute; reflexivity|]. vm_compute. intuition discriminate. Qed.

(** Finding: a live event that arrives after its relay's EOSE marks the id as seen; another relay's stored copy, sent before that relay's
    EOSE, is then skipped, and the first goroutine has left without taking its own: the event is lost. *)
Theorem C50_late_copy_refuted : exists s, exec query_step
    [YStart 0 true; YStart 1 true; YEose 0; YEnd 0; YMsg 0 (B "a") true; YMsg 1 (B "a") true; YEose 1; YEnd 1; YWait] (query_init 2) = Some s /\
  In OClose (q_history s) /\ ~ In OCancel (q_history s) /\ (forall j, ~ In (OEarly j) (q_history s)) /\ In (OMsg 1 (B "a") true false) (q_history s) /\
  times_delivered (B "a") (q_history s) = 0.
Proof. eexists. split; [vm_compute; reflexivity|]. repeat split; try (vm_compute; intuition discriminate); try (intros j Q; vm_compute in Q; intuition discriminate). Qed.
(** Finding: an event that fails its checks still marks its id, so that the good copy of another relay is lost. One bad relay
    can hide any event whose id it knows. *)
Theorem C50_bad_copy_refuted : exists s, exec query_step
    [YStart 0 true; YStart 1 true; YMsg 0 (B "a") false; YMsg 1 (B "a") true; YEose 1; YEnd 1; YEose 0; YEnd 0; YWait] (query_init 2) = Some s /\
  In OClose (q_history s) /\ ~ In OCancel (q_history s) /\ (forall j, ~ In (OEarly j) (q_history s)) /\ In (OMsg 1 (B "a") true false) (q_history s) /\
  times_delivered (B "a") (q_history s) = 0.
Proof. eexists. split; [vm_compute; reflexivity|]. repeat split; try (vm_compute; intuition discriminate); try (intros j Q; vm_compute in Q; intuition discriminate). Qed.

(** ** C51 *)
Definition all_left (s : mstate) : Prop := forall g, In g (m_gs s) -> g_ph g = GEnd.
(** With distinct URLs the channel has been closed when every goroutine has left. Missing: exactly once, which fails, see below. *)
Theorem C51_closed_partial urls s : NoDup urls -> urls <> [] -> reaches many_step (many_init urls) s -> all_left s -> 1 <= m_closes s.
Proof.
  intros ND NE R A. pose proof (many_inv urls s R) as I. pose proof (mi_closing urls s I (eq_sym (fresh_nodup urls ND)) NE) as C.
  assert (Z : c_total is_busy (m_gs s) = 0); [|lia]. apply c_total_zero. intros g Hg. unfold is_busy. rewrite (A g Hg). reflexivity.
Qed.
(** It is not closed while one is still at work. *)
Theorem C51_not_closed_early urls s : reaches many_step (many_init urls) s -> 1 <= m_closes s -> forall g, In g (m_gs s) -> g_ph g <> GRun.
Proof.
  intros R C g Hg Q. pose proof (many_no_early urls s R) as [N _]. specialize (N C). pose proof (c_total_zero_inv _ _ _ N Hg) as X. unfold is_run in X. rewrite Q in X. discriminate.
Qed.
(** Exactly once, if the goroutines leave one at a time. *)
Theorem C51_closed_once_partial urls l s : NoDup urls -> urls <> [] -> exec one_at_a_time l (many_init urls) = Some s ->
  m_crash s = false /\ (all_left s -> m_closes s = 1) /\ (~ all_left s -> m_closes s = 0).
Proof.
  intros ND NE H. assert (T : TInv s).
  { apply (invariant one_at_a_time TInv (many_init urls)); [|intros a s1 s2; apply t_inv_step|exists l; exact H].
    pose proof (fresh_nodup urls ND) as F. unfold TInv, many_init; mproj. rewrite F, !c_total_repeat, repeat_length. unfold is_run, not_eosed. cbn [g_ph g_eosed negb one].
    assert (length urls <> 0) by (destruct urls; [congruence|discriminate]). repeat split; try lia.
    - intros i g Q. apply nth_error_In, repeat_spec in Q. subst g. left. reflexivity.
    - destruct (Nat.eqb_spec (length urls * 1) 0); [lia|reflexivity]. }
  destruct T as (T1 & T2 & T3 & T4 & T5 & T6). split; [exact T3|]. rewrite T5. split; intro A.
  - assert (Z : c_total is_run (m_gs s) = 0) by (apply c_total_zero; intros g Hg; unfold is_run; rewrite (A g Hg); reflexivity). rewrite Z. reflexivity.
  - destruct (Nat.eqb_spec (c_total is_run (m_gs s)) 0) as [Z|Z]; [|reflexivity]. exfalso. apply A. intros g Hg. pose proof (c_total_zero_inv _ _ _ Z Hg) as Q. unfold is_run in Q.
    apply In_nth_error in Hg as [k Hg]. destruct (T1 k g Hg) as [X|X]; [rewrite X in Q; discriminate|exact X].
Qed.
(** Finding: two goroutines that leave together both see zero; the second close panics. *)
Theorem C51_closed_twice_refuted : exists s, exec many_step [MDec 0; MDec 1; MCheck 0; MCheck 1; MClose 0; MClose 1] (many_init [B "wss://a"; B "wss://b"]) = Some s /\ m_closes s = 2 /\ m_crash s = true.
Proof. eexists. split; [vm_compute; reflexivity|]. split; reflexivity. Qed.
(** Finding: with a repeated URL the channel is never closed, in any run; the counter starts too high. *)
Theorem C51_repeated_url_never_closes urls s : ~ NoDup urls -> reaches many_step (many_init urls) s -> m_closes s = 0.
Proof. intros D R. exact (proj1 (mi_dup urls s (many_inv urls s R) (fresh_dup urls D))). Qed.
Theorem C51_repeated_url_refuted : exists s, exec many_step [MDec 0; MCheck 0; MDone 0; MNotify] (many_init [B "wss://a"; B "wss://a"]) = Some s /\ all_left s /\ m_closes s = 0.
Proof. eexists. split; [vm_compute; reflexivity|]. split; [|reflexivity]. intros g [<-|[]]. reflexivity. Qed.
(** ... and with no URL at all. *)
Theorem C51_no_url_never_closes s : reaches many_step (many_init []) s -> m_closes s = 0 /\ all_left s.
Proof.
  intro R. pose proof (many_inv [] s R) as I. pose proof (mi_n _ _ I) as L. cbn in L. destruct (m_gs s) as [|g gs] eqn:E; [|discriminate].
  split; [|intros g Hg; rewrite E in Hg; destruct Hg]. destruct R as [l R]. clear I L E.
  assert (G : forall l s0, m_gs s0 = [] -> m_closes s0 = 0 -> exec many_step l s0 = Some s -> m_closes s = 0).
  { clear. induction l as [|a l IH]; intros s0 G C H; cbn [exec] in H; [injection H as <-; exact C|]. destruct (many_step a s0) as [s1|] eqn:E; [|discriminate]. apply (IH s1); [| |exact H]; clear IH H.
    - many_cases E; try (match goal with HN : nth_error (m_gs s0) _ = Some _ |- _ => rewrite G in HN; destruct i; discriminate HN end). exact G.
    - many_cases E; try (match goal with HN : nth_error (m_gs s0) _ = Some _ |- _ => rewrite G in HN; destruct i; discriminate HN end). exact C. }
  exact (G l (many_init []) eq_refl eq_refl R).
Qed.
(** The EOSE signal: given at most once, only when every goroutine has had its EOSE or has left; the wait group never goes below zero,
    and the only way to panic is the double close. *)
Theorem C51_eose_signal urls s : reaches many_step (many_init urls) s ->
  m_notified s <= 1 /\ (m_notified s = 1 -> forall g, In g (m_gs s) -> g_eosed g = true) /\ (0 <= m_wg s)%Z /\ (m_crash s = true -> 2 <= m_closes s).
Proof.
  intro R. pose proof (many_inv urls s R) as I. destruct (mi_note urls s I) as [N1 N2]. split; [exact N1|]. split; [|split].
  - intros Q g Hg. specialize (N2 Q). pose proof (c_total_zero_inv _ _ _ N2 Hg) as X. unfold not_eosed in X. destruct (g_eosed g); [reflexivity|discriminate].
  - rewrite (mi_wg urls s I). lia.
  - exact (mi_crash urls s I).
Qed.
(** With nothing left to do after every goroutine left, the signal has been given, repeated URLs or not. *)
Theorem C51_eose_signal_comes urls s : reaches many_step (many_init urls) s -> m_crash s = false -> all_left s ->
  (forall i, many_step (MDone i) s = None) -> many_step MNotify s = None -> m_notified s = 1.
Proof.
  intros R C A Q1 Q2. pose proof (many_inv urls s R) as I. destruct (mi_note urls s I) as [N1 N2].
  assert (Z : m_wg s = 0%Z). { rewrite (mi_wg urls s I). rewrite c_total_zero; [reflexivity|]. intros g Hg. pose proof (A g Hg) as P. apply In_nth_error in Hg as [i Hg]. specialize (Q1 i). unfold many_step in Q1. rewrite C, Hg, P in Q1. unfold not_eosed. destruct (g_eosed g); [reflexivity|discriminate]. }
  unfold many_step in Q2. rewrite C, Z in Q2. cbn in Q2. destruct (m_notified s) as [|[|k]]; [discriminate|reflexivity|lia].
Qed.
Example C51_example : exists s, exec one_at_a_time [AEose 1; ALeave 0; ADone 0; ANotify; ALeave 1] (many_init [B "wss://a"; B "wss://b"]) = Some s /\ all_left s /\ m_closes s = 1 /\ m_notified s = 1.
Proof. eexists. split; [vm_compute; reflexivity|]. split; [|split; reflexivity]. intros g [<-|[<-|[]]]; reflexivity. Qed.

(** ** C52. A version is an arrival with a key (author and d tag) and a timestamp. *)
(** [a] is a newest version of its key among [l]. *)
Definition newest {K E} (l : list (arrival K E)) (a : arrival K E) : Prop := In a l /\ forall b, In b l -> a_key b = a_key a -> (a_ts b <= a_ts a)%Z.
(** Finding: the callback says "seen" exactly when the version is newer, and the relay drops what was seen: a single version is lost. *)
Theorem C52_newest_refuted : exists (l : list (arrival str nat)) a, newest l a /\ rget _ seqb (a_key a) (fetch_replaceable _ _ seqb l) = None.
Proof.
  exists [mkArr (B "k") 5 1], (mkArr (B "k") 5 1). split; [|vm_compute; reflexivity]. split; [left; reflexivity|]. intros b [<-|[]] _. lia.
Qed.
(** In general, the version that is returned had, before it, one that was as new: the newest is returned only if it was sent twice
    or shares its timestamp with an earlier one. *)
Theorem C52_never_the_first_newest K E (keqb : K -> K -> bool) (keqb_eq : forall a b, keqb a b = true <-> a = b) (l : list (arrival K E)) k a :
  rget _ keqb k (fetch_replaceable _ _ keqb l) = Some a -> (0 < a_ts a)%Z ->
  exists l1 l2 b, l = l1 ++ a :: l2 /\ In b l1 /\ a_key b = k /\ (a_ts a <= a_ts b)%Z.
Proof.
  intros H P. destruct (rinv_all keqb keqb_eq l) as [_ R]. destruct (R k a H) as (l1 & l2 & Q1 & Q2 & [Q3|(b & Q3)]); [lia|]. exists l1, l2, b. tauto.
Qed.
(** So if the versions of a key have different timestamps, what is returned for it is never the newest. *)
Theorem C52_newest_dropped K E (keqb : K -> K -> bool) (keqb_eq : forall a b, keqb a b = true <-> a = b) (l : list (arrival K E)) k a :
  NoDup (map a_ts (filter (fun b => keqb (a_key b) k) l)) -> rget _ keqb k (fetch_replaceable _ _ keqb l) = Some a -> (0 < a_ts a)%Z -> ~ newest l a.
Proof.
  intros ND H P. destruct (rinv_all keqb keqb_eq l) as [_ R]. destruct (R k a H) as (l1 & l2 & -> & Q2 & [Q3|(b & Q3 & Q4 & Q5)]); [lia|]. intros [_ N].
  assert (T : a_ts b = a_ts a). { assert ((a_ts b <= a_ts a)%Z); [|lia]. apply N; [apply in_or_app; left; exact Q3|congruence]. }
  rewrite filter_app, map_app in ND. cbn [filter] in ND. assert (X : keqb (a_key a) k = true) by (apply keqb_eq; exact Q2). rewrite X in ND. cbn [map] in ND.
  apply NoDup_remove_2 in ND. apply ND. apply in_or_app. left. rewrite <- T. apply in_map. apply filter_In. split; [exact Q3|apply keqb_eq; exact Q4].
Qed.
(** What is true: only versions that were sent are returned, each under its own key. Missing: that it is the newest. *)
Theorem C52_only_sent_partial K E (keqb : K -> K -> bool) (keqb_eq : forall a b, keqb a b = true <-> a = b) (l : list (arrival K E)) k a :
  rget _ keqb k (fetch_replaceable _ _ keqb l) = Some a -> In a l /\ a_key a = k.
Proof. intro H. destruct (rinv_all keqb keqb_eq l) as [_ R]. destruct (R k a H) as (l1 & l2 & -> & Q2 & _). split; [apply in_or_app; right; left; reflexivity|exact Q2]. Qed.
Example C52_example : fetch_replaceable _ _ seqb [mkArr (B "k") 5 1; mkArr (B "k") 3 2; mkArr (B "k") 7 3; mkArr (B "j") 1 4] = [(B "k", mkArr (B "k") 3 2)].
Proof. vm_compute. reflexivity. Qed.

(** ** C53. Each URL with what the calls for it return; [owed] lists for each position of the URL list the one result due. *)
(** When the channel is closed and drained, the results taken are these, in some order. *)
Theorem C53_one_result_each h l s : reaches (many_publish_step h) (many_publish_init l) s -> w_closed s = true -> w_ch s = [] ->
  Permutation (w_taken s) (owed h 0 l).
Proof.
  intros R C D. pose proof (publish_inv h l s R) as I. pose proof (wi_sent h l s I) as P. rewrite D, app_nil_r in P. rewrite P. rewrite <- (wi_gs h l s I).
  rewrite <- (sent_all h 0 (w_gs s)); [reflexivity|]. intros g Hg Q. pose proof (wi_closed h l s I C) as Z. rewrite (wi_count h l s I) in Z. pose proof (c_total_zero_inv _ _ _ Z Hg) as X. unfold unfinished in X. rewrite Q in X. discriminate.
Qed.
(** [owed] names each position once, with its URL. *)
Lemma owed_positions h k l : map (fun r => fst (fst r)) (owed h k l) = seq k (length l) /\ map (fun r => snd (fst r)) (owed h k l) = map fst l.
Proof. revert k. induction l as [|[u c] l IH]; intro k; [split; reflexivity|]. cbn. destruct (IH (S k)) as [-> ->]. split; reflexivity. Qed.
Theorem C53_positions h l s : reaches (many_publish_step h) (many_publish_init l) s -> w_closed s = true -> w_ch s = [] ->
  Permutation (map (fun r => fst (fst r)) (w_taken s)) (seq 0 (length l)) /\ Permutation (map (fun r => snd (fst r)) (w_taken s)) (map fst l).
Proof. intros R C D. pose proof (C53_one_result_each h l s R C D) as P. destruct (owed_positions h 0 l) as [<- <-]. split; apply Permutation_map; exact P. Qed.
(** No goroutine ever waits for the caller to read. *)
Theorem C53_never_blocks h l s i u c : reaches (many_publish_step h) (many_publish_init l) s -> nth_error (w_gs s) i = Some (u, c, WWork) -> many_publish_step h (KSend i) s <> None.
Proof.
  intros R HN. pose proof (publish_inv h l s R) as I. unfold many_publish_step. rewrite HN. destruct (Nat.ltb_spec (length (w_ch s)) (w_cap s)) as [L|L]; [discriminate|]. exfalso.
  rewrite (wi_cap h l s I) in L. pose proof (Permutation_length (wi_sent h l s I)) as P. rewrite app_length in P. pose proof (sent_length h 0 (w_gs s)) as S1.
  pose proof (cnt_pos (fun g => match snd g with WWork => true | _ => false end) _ _ _ HN eq_refl) as Q. pose proof (f_equal (@length _) (wi_gs h l s I)) as M. rewrite map_length in M. lia.
Qed.
(** Nothing is sent on the closed channel, and it is closed once. *)
Theorem C53_closed_last h l s : reaches (many_publish_step h) (many_publish_init l) s -> w_closed s = true ->
  (forall i, many_publish_step h (KSend i) s = None) /\ many_publish_step h KClose s = None.
Proof.
  intros R C. pose proof (publish_inv h l s R) as I. pose proof (wi_closed h l s I C) as Z. split.
  - intro i. cbn. destruct (nth_error (w_gs s) i) as [[[u c] p]|] eqn:HN; [|reflexivity]. rewrite (wi_count h l s I) in Z. apply nth_error_In in HN. pose proof (c_total_zero_inv _ _ _ Z HN) as X. destruct p; [discriminate|reflexivity|reflexivity].
  - cbn. rewrite C, andb_false_r. reflexivity.
Qed.
(** Every run ends, with the channel closed and everything read. *)
Theorem C53_ends h l s : reaches (many_publish_step h) (many_publish_init l) s ->
  (forall a s', many_publish_step h a s = Some s' -> w_weight s' < w_weight s) /\
  ((forall a, many_publish_step h a s = None) -> w_closed s = true /\ w_ch s = []).
Proof.
  intro R. split; [intros a s' H; eapply publish_weight; exact H|]. intro Q. pose proof (publish_inv h l s R) as I. split.
  - destruct (w_closed s) eqn:C; [reflexivity|]. specialize (Q KClose) as QC. cbn in QC. rewrite C, andb_true_r in QC. assert (Z : w_count s = 0); [|rewrite Z in QC; discriminate].
    rewrite (wi_count h l s I). apply c_total_zero. intros [[u c] p] Hg. apply In_nth_error in Hg as [i Hg]. unfold unfinished. cbn [snd]. destruct p; [|specialize (Q (KDone i)); cbn in Q; rewrite Hg in Q; discriminate|reflexivity].
    exfalso. exact (C53_never_blocks h l s i u c R Hg (Q (KSend i))).
  - specialize (Q KTake). cbn in Q. destruct (w_ch s); [reflexivity|discriminate].
Qed.
(** A result without error means that the last publish made succeeded: the first, or the one after a successful AUTH that the relay asked for. *)
Theorem C53_no_error_iff h c : publish_one h c = NoError <->
  c_connect c = true /\ (c_first c = None \/ exists rest, c_first c = Some (B "msg: auth-required:" ++ rest) /\ h = true /\ c_auth c = true /\ c_second c = None).
Proof.
  unfold publish_one. destruct (c_connect c); cbn [negb]; [|split; [discriminate|intros [Q _]; discriminate]]. destruct (c_first c) as [e|]; [|split; [auto|reflexivity]].
  unfold has_prefix. destruct (seqb _ _) eqn:P.
  - apply seqb_eq in P. assert (X : e = B "msg: auth-required:" ++ skipn (length (B "msg: auth-required:")) e) by (rewrite <- P at 1; symmetry; apply firstn_skipn).
    destruct h; cbn [andb]; [|split; [discriminate|intros [_ [Q|(r & _ & Q & _)]]; discriminate]]. destruct (c_auth c); [|split; [discriminate|intros [_ [Q|(r & _ & _ & Q & _)]]; discriminate]].
    destruct (c_second c) as [e2|]; split; try discriminate.
    + intros [_ [Q|(r & _ & _ & _ & Q)]]; discriminate.
    + intros _. split; [reflexivity|]. right. exists (skipn (length (B "msg: auth-required:")) e). rewrite <- X. auto.
    + reflexivity.
  - cbn [andb]. split; [discriminate|]. intros [_ [Q|(r & Q & _)]]; [discriminate|]. assert (X : e = B "msg: auth-required:" ++ r) by congruence. rewrite X in P. rewrite firstn_app, Nat.sub_diag, firstn_all in P. cbn [firstn] in P. rewrite app_nil_r, seqb_refl in P. discriminate.
Qed.
Example C53_example : exists s, exec (many_publish_step true) [KSend 1; KDone 1; KSend 0; KTake; KDone 0; KClose; KTake]
    (many_publish_init [(B "wss://a", mkCalls true (Some (B "msg: auth-required: x")) true None); (B "wss://b", mkCalls false None true None)]) = Some s /\
  w_closed s = true /\ w_ch s = [] /\ w_taken s = [(1, B "wss://b", ErrConnect); (0, B "wss://a", NoError)].
Proof. eexists. split; [vm_compute; reflexivity|]. repeat split. Qed.

(** ** C54 *)
(** Finding: the box is consulted only for a nil entry of pool.Relays and none is ever stored: whatever the penalty, a relay that is not
    connected is dialled at once. *)
Theorem C54_always_dials b ok b' : reaches box_step box_init b -> ~ (b_stored b = true /\ b_connected b = true) -> box_step (EEnsure ok) b = Some b' -> b_dials b' = (b_now b, ok) :: b_dials b.
Proof.
  intros R N H. pose proof (box_inv b R) as I. unfold box_step in H. rewrite (bi_nil b I), andb_false_r in H. cbn [andb negb] in H. rewrite andb_true_r in H.
  destruct (b_stored b && b_connected b) eqn:Q; [apply andb_true_iff in Q; contradiction|]. destruct ok; injection H as <-; reflexivity.
Qed.
Theorem C54_backoff_refuted : exists b, exec box_step [EEnsure false; EEnsure false; EEnsure false] box_init = Some b /\
  b_dials b = [(0, false); (0, false); (0, false)]%Z /\ b_pen b = Some (3, 38)%Z.
Proof. eexists. split; [vm_compute; reflexivity|]. split; reflexivity. Qed.
(** The penalty that is noted: after a failed attempt, 30 + 2^n seconds where n counts the failures so far. Missing: that it is respected. *)
Theorem C54_penalty_partial b b' : reaches box_step box_init b -> ~ (b_stored b = true /\ b_connected b = true) -> box_step (EEnsure false) b = Some b' ->
  b_pen b' = Some (failures b', 30 + 2 ^ failures b')%Z /\ failures b' = (failures b + 1)%Z.
Proof.
  intros R N H. pose proof (box_inv b R) as I. assert (R' : reaches box_step box_init b') by (eapply reaches_trans; [exact R|eapply reaches_step; exact H]). pose proof (bi_pen b (box_inv b R)) as P.
  unfold box_step in H. rewrite (bi_nil b I), andb_false_r in H. cbn [andb negb] in H. rewrite andb_true_r in H.
  destruct (b_stored b && b_connected b) eqn:Q; [apply andb_true_iff in Q; contradiction|]. injection H as <-. unfold failures in *. cbn [b_dials b_pen cnt snd negb].
  assert (F : fst (pen_get b) = Z.of_nat (cnt (fun d => negb (snd d)) (b_dials b))). { unfold pen_get. destruct (b_pen b) as [[n r]|]; cbn [fst]; [tauto|symmetry; exact P]. }
  rewrite F. replace (Z.of_nat (1 + cnt (fun d => negb (snd d)) (b_dials b))) with (Z.of_nat (cnt (fun d => negb (snd d)) (b_dials b)) + 1)%Z by lia. split; reflexivity.
Qed.
(** Finding: a success does not take the count back: the next single failure counts as the third. *)
Theorem C54_success_resets_refuted : exists b, exec box_step [EEnsure false; EEnsure false; EEnsure true; EDrop; EEnsure false] box_init = Some b /\ b_pen b = Some (3, 38)%Z.
Proof. eexists. split; [vm_compute; reflexivity|]. reflexivity. Qed.
(** Finding: the sleeper takes its whole sleep off a penalty that was set while it slept: 32 seconds noted at second 29 are gone at second 32. *)
Theorem C54_penalty_length_refuted : exists b, exec box_step [EWait 29; EEnsure false; EWait 1; ETick; EWait 2; ETick] box_init = Some b /\
  b_dials b = [(29, false)]%Z /\ b_now b = 32%Z /\ b_pen b = Some (1, 0)%Z.
Proof. eexists. split; [vm_compute; reflexivity|]. repeat split. Qed.

Print Assumptions C50_at_most_once.
Print Assumptions C50_only_sent.
Print Assumptions C50_closed_last.
Print Assumptions C50_all_delivered_partial.
Print Assumptions C50_moves_end.
Print Assumptions C50_closes.
Print Assumptions C50_late_copy_refuted.
Print Assumptions C50_bad_copy_refuted.
Print Assumptions C51_closed_partial.
Print Assumptions C51_not_closed_early.
Print Assumptions C51_closed_once_partial.
Print Assumptions C51_closed_twice_refuted.
Print Assumptions C51_repeated_url_never_closes.
Print Assumptions C51_repeated_url_refuted.
Print Assumptions C51_no_url_never_closes.
Print Assumptions C51_eose_signal.
Print Assumptions C51_eose_signal_comes.
Print Assumptions C52_newest_refuted.
Print Assumptions C52_never_the_first_newest.
Print Assumptions C52_newest_dropped.
Print Assumptions C52_only_sent_partial.
Print Assumptions C53_one_result_each.
Print Assumptions C53_positions.
Print Assumptions C53_never_blocks.
Print Assumptions C53_closed_last.
Print Assumptions C53_ends.
Print Assumptions C53_no_error_iff.
Print Assumptions C54_always_dials.
Print Assumptions C54_backoff_refuted.
Print Assumptions C54_penalty_partial.
Print Assumptions C54_success_resets_refuted.
Print Assumptions C54_penalty_length_refuted.
