(** Batched queries and the query for one event: C111. *)
From Verif Require Import Base Machine PoolModel PoolProofs Props_Pool BatchModel BatchProofs.
Import ListNotations.

Definition b_history (s : bstate) : list qobs := rev (b_log s).
Lemma b_in o s : In o (b_history s) <-> In o (b_log s).
Proof. unfold b_history. symmetry. apply in_rev. Qed.
Lemma b_times id s : times_delivered id (b_history s) = delivered id (b_log s).
Proof. unfold times_delivered, b_history, delivered. rewrite filter_rev_length, <- cnt_filter. reflexivity. Qed.
Lemma b_hist_ok n s h1 o h2 : batch_reachable n s -> b_history s = h1 ++ o :: h2 -> ok_qobs o (rev h1).
Proof. intros R H. exact (in_order_rev _ _ _ _ _ (bi_order s (batch_inv n s R)) H). Qed.
(** ** Each id reaches the caller at most once, whichever filters and relays it came through. *)
Theorem C111_at_most_once n s id : batch_reachable n s -> times_delivered id (b_history s) <= 1.
Proof. intro R. rewrite b_times. pose proof (bi_once s (batch_inv n s R) id) as O. unfold btotal in O. destruct (existsb _ _); cbn [one] in O; lia. Qed.
Theorem C111_only_sent n s h1 i id h2 : batch_reachable n s -> b_history s = h1 ++ ODeliver i id :: h2 -> exists late, In (OMsg i id true late) h1.
Proof. intros R H. destruct (b_hist_ok _ _ _ _ _ R H) as [_ [l Q]]. exists l. rewrite <- in_rev in Q. exact Q. Qed.
(** The channel is closed at most once, nothing is sent on it afterwards, and by then the goroutine of every filter has returned. *)
Theorem C111_closed_last n s h1 h2 : batch_reachable n s -> b_history s = h1 ++ OClose :: h2 ->
  ~ In OClose h1 /\ ~ In OClose h2 /\ (forall i id, ~ In (ODeliver i id) h2) /\ forallb has_left (b_fs s) = true.
Proof.
  intros R H. pose proof (batch_inv n s R) as I. split; [|split; [|split]].
  - intro Q. apply (b_hist_ok _ _ _ _ _ R) in H. apply H. rewrite <- in_rev. exact Q.
  - intro Q. apply in_split in Q as (g1 & g2 & ->). replace (h1 ++ OClose :: g1 ++ OClose :: g2) with ((h1 ++ OClose :: g1) ++ OClose :: g2) in H by (rewrite <- app_assoc; reflexivity).
    apply (b_hist_ok _ _ _ _ _ R) in H. apply H. rewrite <- in_rev. apply in_or_app. right. left. reflexivity.
  - intros i id Q. apply in_split in Q as (g1 & g2 & ->). replace (h1 ++ OClose :: g1 ++ ODeliver i id :: g2) with ((h1 ++ OClose :: g1) ++ ODeliver i id :: g2) in H by (rewrite <- app_assoc; reflexivity).
    apply (b_hist_ok _ _ _ _ _ R) in H. apply H. rewrite <- in_rev. apply in_or_app. right. left. reflexivity.
  - apply (bi_closed s I). apply (bi_log s I). apply b_in. rewrite H. apply in_or_app. right. left. reflexivity.
Qed.
(** Every id that some relay sent has been delivered when the channel is closed. Missing: the ids for which one of the messages was bad
    or came after that relay's EOSE; and runs in which the caller cancelled or a relay ended early. *)
Theorem C111_all_delivered_partial n s i id good late : batch_reachable n s -> In OClose (b_history s) -> In (OMsg i id good late) (b_history s) ->
  ~ In OCancel (b_history s) -> (forall j, ~ In (OEarly j) (b_history s)) ->
  (forall j g l, In (OMsg j id g l) (b_history s) -> g = true /\ l = false) ->
  times_delivered id (b_history s) = 1.
Proof.
  intros R HC HM N1 N2 N3. pose proof (batch_inv n s R) as I. pose proof (C111_at_most_once n s id R) as U. rewrite b_in in *.
  pose proof (bi_seen s I _ _ _ _ HM) as HS.
  assert (NE : ~ excused id (b_log s)). { intros [Q|[[j Q]|(j & g & l & Q1 & Q2)]]; [exact (N1 Q)|apply (N2 j); rewrite b_in; exact Q|]. rewrite <- b_in in Q1. apply N3 in Q1. destruct Q1, Q2; congruence. }
  destruct (bi_all s I id HS) as [Q|Q]; [contradiction|]. rewrite b_times in *. unfold btotal in Q.
  assert (Z : c_total (bheld true id) (b_fs s) = 0); [|lia]. apply c_total_zero. intros f Hf. apply In_nth_error in Hf as [k Hk].
  assert (L : bf_out f = OLeft). { apply (bi_log s I) in HC. apply (bi_closed s I) in HC. rewrite forallb_forall in HC. apply nth_error_In in Hk. specialize (HC f Hk). unfold has_left in HC. destruct (bf_out f); congruence. }
  assert (D : is_done (bf_in f) = true). { destruct (bi_left s I k f Hk L) as [S0|S0]; [exact (bi_shut s I k f Hk S0)|contradiction]. }
  destruct (bi_done s I k f Hk D) as [[P _]|[X|[j X]]]; [|contradiction|destruct (N2 j); rewrite b_in; exact X].
  unfold bheld, held. rewrite L, (done_ph _ D). clear -P. induction (rq_pending (bf_in f)) as [|[x b] l IH]; [reflexivity|]. cbn [existsb snd] in P. apply orb_false_iff in P as [-> P]. cbn [cnt fst snd negb orb]. rewrite andb_false_r. specialize (IH P). cbn [negb orb] in IH. lia.
Qed.
(** The goroutines' own moves come to an end, with a receiver or without. When none is left and every relay has given its EOSE or is done,
    the channel is closed and nobody is left waiting; likewise after a cancel, even if nobody receives any more. *)
Theorem C111_moves_end a s s' : b_internal a || is_send a = true -> batch_step a s = Some s' -> b_weight s' < b_weight s.
Proof. apply batch_weight. Qed.
Theorem C111_closes n s : batch_reachable n s -> (forall a, b_internal a || is_send a = true -> batch_step a s = None) ->
  (forall i f, nth_error (b_fs s) i = Some f -> is_connecting (bf_in f) = false /\ (rq_eose (bf_in f) = true \/ is_done (bf_in f) = true)) ->
  In OClose (b_history s) /\ forall i f, nth_error (b_fs s) i = Some f -> is_done (bf_in f) = true /\ bf_shut f = true /\ bf_out f = OLeft.
Proof.
  intros R Q W. pose proof (batch_inv n s R) as I. destruct (batch_quiet s I) as [C D].
  - intros a A. apply Q. rewrite A. reflexivity.
  - intros i f H. apply (W i f H).
  - right. split; [intro i; apply Q; reflexivity|]. intros i f H. apply (W i f H).
  - split; [|exact D]. rewrite b_in. apply (bi_log s I). exact C.
Qed.
Theorem C111_closes_after_cancel n s : batch_reachable n s -> In OCancel (b_history s) -> (forall a, b_internal a = true -> batch_step a s = None) ->
  (forall i f, nth_error (b_fs s) i = Some f -> is_connecting (bf_in f) = false) ->
  In OClose (b_history s) /\ forall i f, nth_error (b_fs s) i = Some f -> is_done (bf_in f) = true /\ bf_shut f = true /\ bf_out f = OLeft.
Proof.
  intros R HC Q W. pose proof (batch_inv n s R) as I. rewrite b_in in HC. destruct (batch_quiet s I Q W) as [C D].
  - left. apply (bi_ctx s I). exact HC.
  - split; [|exact D]. rewrite b_in. apply (bi_log s I). exact C.
Qed.
(** A run: two filters for two relays, one id from both, then all closed. *)
Definition C111_run : list baction :=
  [BStart 0 true; BStart 1 true; BMsg 0 (B "a") true; BMsg 1 (B "b") true; BMsg 1 (B "a") true; BTake 0 0; BPass 0; BMsg 0 (B "c") true; BTake 0 0; BEose 1; BSend 0; BPass 0; BTake 1 0; BPass 1;
   BEose 0; BInEnd 0; BShut 0; BSend 1; BInEnd 1; BSend 0; BRangeEnd 0; BShut 1; BRangeEnd 1; BClose].
Example C111_example : exists s, exec batch_step C111_run (batch_init 2) = Some s /\ In OClose (b_history s) /\ ~ In OCancel (b_history s) /\ (forall j, ~ In (OEarly j) (b_history s)) /\
  times_delivered (B "a") (b_history s) = 1 /\ times_delivered (B "b") (b_history s) = 1 /\ times_delivered (B "c") (b_history s) = 1.
Proof. eexists. split; [vm_compute; reflexivity|]. repeat split; try (vm_compute; intuition discriminate); try (intros j Q; vm_compute in Q; intuition discriminate). Qed.
(** A cancel while both goroutines of a filter hold an event: both return and all is closed, with no receiver. *)
Example C111_cancel_example : exists s, exec batch_step
    [BStart 0 true; BMsg 0 (B "a") true; BMsg 0 (B "b") true; BTake 0 0; BPass 0; BTake 0 0; BCancel; BLeave 0; BInCtx 0; BShut 0; BClose] (batch_init 1) = Some s /\
  In OCancel (b_history s) /\ (forall a, b_internal a = true -> batch_step a s = None) /\ In OClose (b_history s).
Proof.
  eexists. split; [vm_compute; reflexivity|]. split; [vm_compute; tauto|]. split; [|vm_compute; tauto].
  intros a A. destruct a as [i ok|i id good|i|i k|i|i|i|i|i|i|i|i|i| |]; try discriminate A; try (destruct i as [|[|i]]; reflexivity). reflexivity.
Qed.
(** False: every stored event of a relay that was asked is delivered. The filters share the ids seen, so a bad or a late copy on one relay hides the event of another. *)
Theorem C111_all_delivered_refuted : exists s, exec batch_step
    [BStart 0 true; BStart 1 true; BMsg 0 (B "a") false; BMsg 1 (B "a") true; BEose 1; BInEnd 1; BEose 0; BInEnd 0; BShut 0; BShut 1; BRangeEnd 0; BRangeEnd 1; BClose] (batch_init 2) = Some s /\
  In OClose (b_history s) /\ ~ In OCancel (b_history s) /\ (forall j, ~ In (OEarly j) (b_history s)) /\ In (OMsg 1 (B "a") true false) (b_history s) /\ times_delivered (B "a") (b_history s) = 0.
Proof. eexists. split; [vm_compute; reflexivity|]. repeat split; try (vm_compute; intuition discriminate); try (intros j Q; vm_compute in Q; intuition discriminate). Qed.

(** ** QuerySingle *)
Definition sends (s : sstate) : list (nat * str) := flat_map (fun o => match o with ODeliver i id => [(i, id)] | _ => [] end) (q_history (ss_q s)).
Lemma flat_rev {X Y} (g : X -> list Y) l : (forall x, g x = [] \/ exists y, g x = [y]) -> flat_map g (rev l) = rev (flat_map g l).
Proof.
  intro H. induction l as [|x l IH]; [reflexivity|]. cbn [rev flat_map]. rewrite flat_map_app, IH, rev_app_distr. cbn [flat_map]. rewrite app_nil_r. destruct (H x) as [->|[y ->]]; reflexivity.
Qed.
Lemma any_length log : length (flat_map (fun o => match o with ODeliver i id => [(i, id)] | _ => [] end) log) = any_delivered log.
Proof. induction log as [|o log IH]; [reflexivity|]. cbn [flat_map any_delivered cnt]. rewrite app_length, IH. destruct o; reflexivity. Qed.
Lemma sends_length s : length (sends s) = any_delivered (q_log (ss_q s)).
Proof. unfold sends, q_history. rewrite flat_rev, rev_length; [apply any_length|]. intros []; eauto. Qed.
Lemma sends_in s i id : In (i, id) (sends s) <-> In (ODeliver i id) (q_log (ss_q s)).
Proof.
  unfold sends, q_history. rewrite in_flat_map. split.
  - intros (o & Ho & Q). rewrite <- in_rev in Ho. destruct o; cbn in Q; try contradiction. destruct Q as [Q|[]]. injection Q as <- <-. exact Ho.
  - intro H. exists (ODeliver i id). split; [apply -> in_rev; exact H|left; reflexivity].
Qed.
(** What is returned is the one event ever sent to the caller, and a relay had sent it, matching and signed. *)
Theorem C111_single_found n s id : single_reachable n s -> ss_ph s = SReturned (Some id) -> exists i late, sends s = [(i, id)] /\ In (OMsg i id true late) (q_history (ss_q s)).
Proof.
  intros R P. destruct (single_inv n s R) as [RQ SP]. rewrite P in SP. destruct SP as (D & [i Hi] & _). pose proof (sends_length s) as L. rewrite D in L.
  destruct (sends s) as [|[j x] [|]] eqn:E; cbn in L; try lia. pose proof (proj2 (sends_in s i id) Hi) as X. rewrite E in X. destruct X as [X|[]]. injection X as -> ->.
  assert (HI : In (ODeliver i id) (q_history (ss_q s))) by (unfold q_history; apply -> in_rev; exact Hi). apply in_split in HI as (h1 & h2 & HH). destruct (C50_only_sent n (ss_q s) h1 i id h2 RQ HH) as [l Hl]. exists i, l. split; [reflexivity|]. rewrite HH. apply in_or_app. left. exact Hl.
Qed.
(** Nothing is returned only when nothing was sent and every relay's goroutine has returned; then, unless the caller cancelled or a relay ended early,
    any message there was had a bad or late copy. *)
Theorem C111_single_nothing n s : single_reachable n s -> ss_ph s = SReturned None -> sends s = [] /\ forallb is_done (q_relays (ss_q s)) = true /\
  (~ In OCancel (q_history (ss_q s)) -> (forall j, ~ In (OEarly j) (q_history (ss_q s))) ->
   forall i id good late, In (OMsg i id good late) (q_history (ss_q s)) -> exists j g l, In (OMsg j id g l) (q_history (ss_q s)) /\ (g = false \/ l = true)).
Proof.
  intros R P. destruct (single_inv n s R) as [RQ SP]. rewrite P in SP. destruct SP as (D & C). pose proof (sends_length s) as L. rewrite D in L. destruct (sends s) as [|x l] eqn:E; [|discriminate].
  split; [reflexivity|]. pose proof (query_inv n _ RQ) as I. split; [apply (qi_closed _ I), C|]. intros N1 N2 i id good late HM.
  destruct (qi_all _ I id) as [Q|Q]; [apply (qi_seen _ I i id good late); apply in_rev; exact HM| |].
  - destruct Q as [Q|[[j Q]|(j & g & la & Q1 & Q2)]]; [destruct N1; unfold q_history; apply -> in_rev; exact Q|destruct (N2 j); unfold q_history; apply -> in_rev; exact Q|]. exists j, g, la. split; [unfold q_history; apply -> in_rev; exact Q1|exact Q2].
  - exfalso. assert (Z : c_total (held true id) (q_relays (ss_q s)) = 0).
    { apply c_total_zero. intros r Hr. pose proof (qi_closed _ I C) as F. rewrite forallb_forall in F. pose proof (F r Hr) as Dr. apply In_nth_error in Hr as [k Hk].
      destruct (qi_done _ I k r Hk Dr) as [[Pd _]|[X|[j X]]]; [|destruct N1; unfold q_history; apply -> in_rev; exact X|destruct (N2 j); unfold q_history; apply -> in_rev; exact X].
      unfold held. rewrite (done_ph _ Dr). clear -Pd. induction (rq_pending r) as [|[x b] l IH]; [reflexivity|]. cbn [existsb snd] in Pd. apply orb_false_iff in Pd as [-> Pd]. cbn [cnt fst snd negb orb]. rewrite andb_false_r. specialize (IH Pd). cbn [negb orb] in IH. lia. }
    unfold total in Q. rewrite Z in Q. assert (Y : delivered id (q_log (ss_q s)) <= any_delivered (q_log (ss_q s))) by (apply cnt_mono; intros []; auto; discriminate). lia.
Qed.
(** After a return no goroutine is left: the moves of the query that need no receiver end (C50_moves_end) and when none is left all have returned and the channel is closed. *)
Definition unreceived (a : qaction) : bool := match a with YTake _ _ | YEnd _ | YCtx _ | YWait => true | _ => false end.
Theorem C111_single_no_leak n s r : single_reachable n s -> ss_ph s = SReturned r -> (forall a, unreceived a = true -> single_step (SQuery a) s = None) ->
  (forall i q, nth_error (q_relays (ss_q s)) i = Some q -> is_connecting q = false) -> q_closed (ss_q s) = true /\ forallb is_done (q_relays (ss_q s)) = true.
Proof.
  intros R P Q W. destruct (single_inv n s R) as [RQ SP]. pose proof (query_inv n _ RQ) as I. rewrite P in SP. destruct r as [id|]; [|split; [apply SP|apply (qi_closed _ I), SP]].
  destruct SP as (_ & _ & C). assert (K : forall a, unreceived a = true -> query_step a (ss_q s) = None).
  { intros a A. specialize (Q a A). cbn [single_step] in Q. destruct a; try discriminate A; destruct (query_step _ (ss_q s)); congruence. }
  assert (D : forallb is_done (q_relays (ss_q s)) = true).
  { apply forallb_forall. intros q Hq. apply In_nth_error in Hq as [i Hi]. specialize (W i q Hi). specialize (K (YCtx i) eq_refl). cbn [query_step] in K. rewrite Hi, C in K. unfold is_done, is_connecting in *. destruct (rq_ph q); congruence. }
  split; [|exact D]. destruct (q_closed (ss_q s)) eqn:X; [reflexivity|]. specialize (K YWait eq_refl). cbn [query_step] in K. rewrite D, X in K. discriminate.
Qed.
Example C111_single_example : exists s, exec single_step
    [SQuery (YStart 0 true); SQuery (YStart 1 true); SQuery (YMsg 1 (B "b") true); SQuery (YMsg 0 (B "a") true); SQuery (YTake 0 0); SQuery (YTake 1 0); SFirst 1; SCancel; SQuery (YCtx 0); SQuery (YCtx 1); SQuery YWait] (single_init 2) = Some s /\
  ss_ph s = SReturned (Some (B "b")) /\ (forall a, unreceived a = true -> single_step (SQuery a) s = None).
Proof.
  eexists. split; [vm_compute; reflexivity|]. split; [reflexivity|]. intros a A. destruct a as [i ok|i id good|i|i k|i|i|i|i|i| |]; try discriminate A; try (destruct i as [|[|[|i]]]; reflexivity). reflexivity.
Qed.
(** False: an event is returned if some relay has one. *)
Theorem C111_single_nothing_refuted : exists s, exec single_step
    [SQuery (YStart 0 true); SQuery (YStart 1 true); SQuery (YMsg 0 (B "a") false); SQuery (YMsg 1 (B "a") true); SQuery (YEose 1); SQuery (YEnd 1); SQuery (YEose 0); SQuery (YEnd 0); SQuery YWait; SNothing] (single_init 2) = Some s /\
  ss_ph s = SReturned None /\ In (OMsg 1 (B "a") true false) (q_history (ss_q s)) /\ ~ In OCancel (q_history (ss_q s)) /\ (forall j, ~ In (OEarly j) (q_history (ss_q s))).
Proof. eexists. split; [vm_compute; reflexivity|]. repeat split; try (vm_compute; intuition discriminate); try (intros j Q; vm_compute in Q; intuition discriminate). Qed.

(** ** Options of two calls made with the same slice of options *)
Definition slice_ok (m : arrays) (s : slice) : Prop := sl_arr s < length m /\ sl_len s <= length (arr_of m (sl_arr s)).
Theorem C111_options m s x : slice_ok m s -> contents (fst (append_one m s x)) (snd (append_one m s x)) = contents m s ++ [x] /\ contents (fst (append_one m s x)) s = contents m s.
Proof.
  intros [A L]. unfold append_one. destruct (Nat.ltb_spec (sl_len s) (length (arr_of m (sl_arr s)))) as [Q|Q]; cbn [fst snd]; unfold contents; cbn [sl_arr sl_len].
  - rewrite arr_upd_same by exact A. rewrite firstn_upd by exact Q. split; [reflexivity|]. clear -Q. revert Q. generalize (sl_len s), (arr_of m (sl_arr s)). intros n l. revert n. induction l as [|y l IH]; intros [|n] Q; cbn in *; try reflexivity; try lia. f_equal. apply IH. lia.
  - assert (E : arr_of (m ++ [firstn (sl_len s) (arr_of m (sl_arr s)) ++ [x]]) (length m) = firstn (sl_len s) (arr_of m (sl_arr s)) ++ [x]) by (unfold arr_of at 1; rewrite nth_snoc_new; reflexivity). rewrite E.
    split; [apply firstn_all2; rewrite app_length, firstn_length; cbn; lia|]. f_equal. unfold arr_of. rewrite nth_error_app1 by exact A. reflexivity.
Qed.
(** Exactly when a second call leaves the options of the first alone: the slice had no room, or the added option is the same. *)
Theorem C111_options_shared m s x y : slice_ok m s -> let '(m1, s1) := append_one m s x in let '(m2, s2) := append_one m1 s y in
  contents m2 s2 = contents m s ++ [y] /\ (contents m2 s1 = contents m s ++ [x] <-> length (arr_of m (sl_arr s)) = sl_len s \/ x = y).
Proof.
  intros [A L]. destruct (append_one m s x) as [m1 s1] eqn:E0. unfold append_one in E0. destruct (Nat.ltb_spec (sl_len s) (length (arr_of m (sl_arr s)))) as [Q|Q]; injection E0 as <- <-.
  - unfold append_one. rewrite arr_upd_same by exact A. rewrite upd_length. destruct (Nat.ltb_spec (sl_len s) (length (arr_of m (sl_arr s)))) as [_|Q2]; [|lia].
    rewrite !upd_upd. unfold contents. cbn [sl_arr sl_len]. rewrite arr_upd_same by exact A. rewrite firstn_upd by exact Q. split; [reflexivity|]. split.
    + intro E. right. apply app_inv_head in E. congruence.
    + intros [E| ->]; [lia|reflexivity].
  - assert (E1 : arr_of (m ++ [firstn (sl_len s) (arr_of m (sl_arr s)) ++ [x]]) (sl_arr s) = arr_of m (sl_arr s)) by (unfold arr_of; rewrite nth_error_app1 by exact A; reflexivity).
    unfold append_one, contents. rewrite E1. destruct (Nat.ltb_spec (sl_len s) (length (arr_of m (sl_arr s)))) as [Q2|_]; [lia|]. cbn [sl_arr sl_len].
    set (c := firstn (sl_len s) (arr_of m (sl_arr s))). assert (Lc : length c = sl_len s) by (unfold c; rewrite firstn_length; lia).
    assert (E2 : arr_of ((m ++ [c ++ [x]]) ++ [c ++ [y]]) (length (m ++ [c ++ [x]])) = c ++ [y]) by (unfold arr_of; rewrite nth_snoc_new; reflexivity).
    assert (E3 : arr_of ((m ++ [c ++ [x]]) ++ [c ++ [y]]) (length m) = c ++ [x]) by (unfold arr_of; rewrite (nth_snoc_old _ _ _ (c ++ [x])); [reflexivity|apply nth_snoc_new]).
    rewrite E2, E3. split; [apply firstn_all2; rewrite app_length; cbn; lia|]. split; [intros _; left; lia|]. intros _. apply firstn_all2. rewrite app_length. cbn. lia.
Qed.
(** False: a query asks its own check whether an event was seen. Two calls with one slice of options that has room: the first then uses the check of the second. *)
Theorem C111_options_shared_refuted : exists m s, slice_ok m s /\ contents m s = [7] /\
  (let '(m1, s1) := append_one m s 1 in let '(m2, s2) := append_one m1 s 2 in contents m2 s1 = [7; 2] /\ contents m2 s2 = [7; 2]).
Proof. exists [[7; 0; 0; 0]], (mkSlice 0 1). split; [split; cbn; lia|]. vm_compute. repeat split. Qed.

Print Assumptions C111_at_most_once.
Print Assumptions C111_only_sent.
Print Assumptions C111_closed_last.
Print Assumptions C111_all_delivered_partial.
Print Assumptions C111_moves_end.
Print Assumptions C111_closes.
Print Assumptions C111_closes_after_cancel.
Print Assumptions C111_all_delivered_refuted.
Print Assumptions C111_single_found.
Print Assumptions C111_single_nothing.
Print Assumptions C111_single_no_leak.
Print Assumptions C111_single_nothing_refuted.
Print Assumptions C111_options.
Print Assumptions C111_options_shared.
Print Assumptions C111_options_shared_refuted.
