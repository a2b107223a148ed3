(** C43-C45: one subscription under every schedule. A schedule is any list of actions; [history] lists what happened in
    order. Event number [i] is the [i]th event the reader dispatched. *)
From Verif Require Import Base Machine SubModel SubProofs.
Import ListNotations.

(** [a] happened and [b] later. *)
Definition precedes {X} (a b : X) (h : list X) : Prop := exists h1 h2, h = h1 ++ b :: h2 /\ In a h1.

Section Props.
Context {E : Type}.
Implicit Types (s : sub E) (h : list (obs E)).

Lemma precedes_earlier (a b : obs E) l : precedes a b (rev l) <-> earlier a b l.
Proof.
  split.
  - intros (h1 & h2 & Q & H). exists (rev h2), (rev h1). split; [|rewrite <- in_rev; exact H].
    rewrite <- (rev_involutive l), Q, rev_app_distr. cbn [rev]. rewrite <- app_assoc. reflexivity.
  - intros (l2 & l1 & -> & H). exists (rev l1), (rev l2). split; [|rewrite <- in_rev; exact H].
    rewrite rev_app_distr. cbn [rev]. rewrite <- app_assoc. reflexivity.
Qed.
Lemma hist_ok s h1 o h2 : reachable s -> history s = h1 ++ o :: h2 -> ok_obs o (rev h1).
Proof. intros R H. apply (in_order_rev ok_obs (s_log s) h1 o h2); [exact (proj1 (reachable_inv s R))|exact H]. Qed.
Lemma split_twice h1 (o : obs E) h2 : In o h2 -> exists g1 g2, h1 ++ o :: h2 = (h1 ++ o :: g1) ++ o :: g2.
Proof. intro H. apply in_split in H as (g1 & g2 & ->). exists g1, g2. rewrite <- app_assoc. reflexivity. Qed.
Lemma in_rev1 h (o : obs E) : In o (rev h) <-> In o h. Proof. symmetry. apply in_rev. Qed.

(** ** C43 *)
(** The signal is given at most once. *)
Theorem C43_signal_at_most_once s h1 h2 : reachable s -> history s = h1 ++ LSignal :: h2 -> ~ In LSignal h1 /\ ~ In LSignal h2.
Proof.
  intros R H. split.
  - intro Q. apply (hist_ok _ _ _ _ R) in H. apply H. rewrite in_rev1. exact Q.
  - intro Q. apply (split_twice h1) in Q as (g1 & g2 & Q). rewrite Q in H. apply (hist_ok _ _ _ _ R) in H. apply H. rewrite in_rev1.
    apply in_or_app. right. left. reflexivity.
Qed.

(** It comes after the relay's EOSE, every event received before that EOSE was delivered or dropped before the signal, and
    none of them is delivered after it. *)
Theorem C43_signal_after_stored s h1 h2 : reachable s -> history s = h1 ++ LSignal :: h2 ->
  In LEoseMsg h1 /\
  (forall i e, precedes (LRecv i e) LEoseMsg h1 -> In (LDeliver i e) h1 \/ In (LDrop i e) h1) /\
  (forall i e, precedes (LRecv i e) LEoseMsg h1 -> ~ In (LDeliver i e) h2).
Proof.
  intros R H. pose proof (hist_ok _ _ _ _ R H) as (O1 & O2 & O3). rewrite in_rev1 in O2. split; [exact O2|].
  assert (D : forall i e, precedes (LRecv i e) LEoseMsg h1 -> In (LDeliver i e) h1 \/ In (LDrop i e) h1).
  { intros i e P. rewrite <- (rev_involutive h1) in P. apply precedes_earlier in P. apply O3 in P. rewrite !in_rev1 in P. exact P. }
  split; [exact D|]. intros i e P Q. apply D in P. apply in_split in Q as (g1 & g2 & ->).
  replace (h1 ++ LSignal :: g1 ++ LDeliver i e :: g2) with ((h1 ++ LSignal :: g1) ++ LDeliver i e :: g2) in H by (rewrite <- app_assoc; reflexivity).
  pose proof (hist_ok _ _ _ _ R H) as (_ & D1 & D2 & _). destruct P as [P|P].
  - apply (D1 e). rewrite in_rev1. apply in_or_app. auto.
  - apply (D2 e). rewrite in_rev1. apply in_or_app. auto.
Qed.

(** An event is dropped only if the subscription was ended or had not been started. *)
Theorem C43_drop_reason s h1 i e h2 : reachable s -> history s = h1 ++ LDrop i e :: h2 ->
  In LCancel h1 \/ In LOff h1 \/ ~ In LFire h1.
Proof. intros R H. pose proof (hist_ok _ _ _ _ R H) as (_ & _ & _ & D). rewrite !in_rev1 in D. exact D. Qed.

(** When the program has nothing left to do, a relay's EOSE has been signalled. *)
Theorem C43_signal_comes s : reachable s -> s_crashed s = false -> quiet s -> In LEoseMsg (history s) -> In LSignal (history s).
Proof.
  intros R CR Q. unfold history. rewrite !in_rev1. pose proof (proj2 (reachable_inv s R) CR) as I. rewrite <- (i_eosed s I), <- (i_signal s I).
  destruct (quiet_done s I CR Q) as (_ & _ & W). pose proof (i_waiter s I) as IW. intro ES. destruct (s_waiter s); congruence.
Qed.

(** ** C44 *)
Theorem C44_delivered_once s h1 i e h2 : reachable s -> history s = h1 ++ LDeliver i e :: h2 ->
  In (LRecv i e) h1 /\ In LFire h1 /\ forall e', ~ In (LDeliver i e') h1 /\ ~ In (LDeliver i e') h2.
Proof.
  intros R H. pose proof (hist_ok _ _ _ _ R H) as (D1 & D2 & _ & _ & D5 & _). rewrite in_rev1 in D1, D5. split; [exact D1|]. split; [exact D5|].
  intro e'. split.
  - intro Q. apply (D2 e'). rewrite in_rev1. exact Q.
  - intro Q. apply in_split in Q as (g1 & g2 & ->).
    replace (h1 ++ LDeliver i e :: g1 ++ LDeliver i e' :: g2) with ((h1 ++ LDeliver i e :: g1) ++ LDeliver i e' :: g2) in H by (rewrite <- app_assoc; reflexivity).
    pose proof (hist_ok _ _ _ _ R H) as (_ & D & _). apply (D e). rewrite in_rev1. apply in_or_app. right. left. reflexivity.
Qed.

(** Event numbers name one reception each. *)
Theorem C44_numbers_distinct s h1 i e h2 : reachable s -> history s = h1 ++ LRecv i e :: h2 -> forall e', ~ In (LRecv i e') h1.
Proof. intros R H e' Q. apply (hist_ok _ _ _ _ R H e'). rewrite in_rev1. exact Q. Qed.

(** When the program has nothing left to do, an event received after Fire was delivered, unless the subscription was cancelled
    or closed. *)
Theorem C44_all_delivered s i e : reachable s -> s_crashed s = false -> quiet s ->
  precedes LFire (LRecv i e) (history s) -> ~ In LCancel (history s) -> ~ In LOff (history s) ->
  In (LDeliver i e) (history s).
Proof.
  intros R CR Q P N1 N2. pose proof (proj2 (reachable_inv s R) CR) as I. pose proof (proj1 (reachable_inv s R)) as O. unfold history in *.
  rewrite in_rev1 in *. apply precedes_earlier in P. pose proof (proj2 (earlier_in _ _ _ P)) as P2.
  apply (i_recv s I) in P2 as (t & HN & HE). destruct (quiet_done s I CR Q) as (TD & _ & _).
  pose proof (i_out s I i t HN) as OUT. rewrite (TD i t HN), HE in OUT. destruct OUT as [OUT|OUT]; [exact OUT|]. exfalso.
  apply in_split in OUT as (l2 & l1 & HL). rewrite HL in *. pose proof (in_order_split _ _ _ _ _ O eq_refl) as (D1 & _ & _ & D4).
  destruct D4 as [D4|[D4|D4]].
  - apply N1. apply in_or_app. right. right. exact D4.
  - apply N2. apply in_or_app. right. right. exact D4.
  - apply D4. (* LFire is before LRecv, which is before LDrop *)
    apply in_split in D1 as (k2 & k1 & ->).
    destruct P as (m2 & m1 & PM & PF).
    assert (U : forall m2 m1 k2 k1 : list (obs E), in_order ok_obs (m2 ++ LRecv i e :: m1) -> m2 ++ LRecv i e :: m1 = k2 ++ LRecv i e :: k1 -> m1 = k1).
    { clear. induction m2 as [|x m2 IH]; intros m1 k2 k1 O H; destruct k2 as [|y k2]; cbn [app] in *.
      - congruence.
      - injection H as <- ->. destruct O as [O _]. exfalso. apply (O e). apply in_or_app. right. left. reflexivity.
      - injection H as -> <-. destruct O as [O _]. exfalso. apply (O e). apply in_or_app. right. left. reflexivity.
      - injection H as _ H. destruct O as [_ O]. eapply IH; eassumption. }
    assert (m1 = k1). { apply (U m2 m1 (l2 ++ LDrop i e :: k2) k1); [rewrite <- PM; exact O|]. rewrite <- app_assoc. cbn [app]. congruence. }
    subst m1. apply in_or_app. right. right. exact PF.
Qed.

(** The program always gets there: internal steps make a natural number smaller, so they run out, whatever their order. *)
Theorem C44_terminates a s s' : internal a -> sub_step a s = Some s' -> weight s' < weight s.
Proof. apply internal_decreases. Qed.
Theorem C44_no_deadlock s : reachable s -> s_crashed s = false ->
  exists s', reaches sub_step s s' /\ (s_crashed s' = true \/ quiet s').
Proof. intros _. apply quiet_reachable. Qed.

(** ** C45 *)
Theorem C45_close_once s h1 h2 : reachable s -> history s = h1 ++ LCloseMsg :: h2 ->
  ~ In LCloseMsg h1 /\ ~ In LCloseMsg h2 /\ In LFire h1 /\ In LCancel h1.
Proof.
  intros R H. pose proof (hist_ok _ _ _ _ R H) as (D1 & D2 & D3). rewrite in_rev1 in *. split; [exact D1|]. split; [|auto].
  intro Q. apply (split_twice h1) in Q as (g1 & g2 & Q). rewrite Q in H. pose proof (hist_ok _ _ _ _ R H) as (O & _). apply O. rewrite in_rev1.
  apply in_or_app. right. left. reflexivity.
Qed.

Theorem C45_channel_closed_once s h1 h2 : reachable s -> history s = h1 ++ LChanClose :: h2 ->
  In LCancel h1 /\ ~ In LChanClose h1 /\ ~ In LChanClose h2 /\ forall i e, ~ In (LDeliver i e) h2.
Proof.
  intros R H. pose proof (hist_ok _ _ _ _ R H) as (D1 & D2). rewrite in_rev1 in *. split; [exact D2|]. split; [exact D1|]. split.
  - intro Q. apply (split_twice h1) in Q as (g1 & g2 & Q). rewrite Q in H. pose proof (hist_ok _ _ _ _ R H) as (O & _). apply O. rewrite in_rev1.
    apply in_or_app. right. left. reflexivity.
  - intros i e Q. apply in_split in Q as (g1 & g2 & ->).
    replace (h1 ++ LChanClose :: g1 ++ LDeliver i e :: g2) with ((h1 ++ LChanClose :: g1) ++ LDeliver i e :: g2) in H by (rewrite <- app_assoc; reflexivity).
    pose proof (hist_ok _ _ _ _ R H) as (_ & _ & _ & D & _). apply D. rewrite in_rev1. apply in_or_app. right. left. reflexivity.
Qed.

(** A cancelled subscription closes its channel. *)
Theorem C45_channel_closes s : reachable s -> s_crashed s = false -> quiet s -> In LCancel (history s) -> In LChanClose (history s).
Proof.
  intros R CR Q. unfold history. rewrite !in_rev1. pose proof (proj2 (reachable_inv s R) CR) as I. rewrite <- (i_cancel s I), <- (i_chan s I). intro C.
  apply (i_chan2 s I). destruct (quiet_done s I CR Q) as (_ & P & _). pose proof (i_start0 s I) as L.
  destruct (nth_error (s_procs s) 0) as [p|] eqn:HN; [|apply nth_error_None in HN; lia].
  exists p. split; [reflexivity|]. destruct (P 0 p HN) as [HP|[_ HP]]; [auto|congruence].
Qed.

(** Once the channel is closed the subscription is out of the relay's map, so at most one more event reaches it: the one the
    reader had already looked it up for. *)
Definition received_in h : nat := length (filter is_recv h).
Lemma closed_since h1 h2 : received_in h2 <= since_close (rev h2 ++ LChanClose :: rev h1).
Proof.
  unfold received_in. induction h2 as [|o h2 IH] using rev_ind; [cbn; lia|]. rewrite filter_app, app_length, rev_app_distr. cbn [rev app since_close].
  rewrite existsb_app. cbn [existsb is_chan_close orb]. rewrite orb_true_r. cbn [filter]. destruct (is_recv o); cbn [length]; lia.
Qed.
Theorem C45_last_event s h1 h2 : reachable s -> history s = h1 ++ LChanClose :: h2 -> received_in h2 <= 1.
Proof.
  intros R H. destruct (gone_reachable s R) as (_ & _ & N). pose proof (closed_since h1 h2) as X. unfold history in H.
  apply (f_equal (@rev _)) in H. rewrite rev_involutive, rev_app_distr in H. cbn [rev] in H. rewrite <- app_assoc in H. cbn [app] in H. rewrite H in N. lia.
Qed.
(** A caller of Unsub that is done has taken the subscription out of the map: the reader does not find it any more. *)
Theorem C45_unsub_removes s i p e : reachable s -> nth_error (s_procs s) i = Some p -> p_pc p = PEnd -> sub_step (ALoad e) s = None.
Proof.
  intros R H P. destruct (gone_reachable s R) as (I & _ & _). unfold sub_step. rewrite (I i p H) by (rewrite P; reflexivity).
  destruct (s_crashed s); reflexivity.
Qed.

(** Full statement: no schedule crashes. It is false; it holds for the schedules where Fire does not come after a cancellation. *)
Theorem C45_no_crash_partial s : reachable s -> ~ precedes LCancel LFire (history s) -> s_crashed s = false.
Proof. intros R F. apply (strict_reachable s R). unfold fire_first. intro Q. apply F. apply precedes_earlier. exact Q. Qed.
(** ... and then a closed subscription was closed for good: it is not live any more. *)
Theorem C45_dead_after_close_partial s : reachable s -> ~ precedes LCancel LFire (history s) -> In LChanClose (history s) -> s_live s = false.
Proof.
  intros R F C. assert (S : Strict s). { apply (strict_reachable s R). intro Q. apply F. apply precedes_earlier. exact Q. }
  destruct S as (_ & I & L & _). unfold history in C. rewrite in_rev1 in C. apply (i_chan s I) in C. apply (i_chan2 s I) in C as (p & HN & HP).
  apply (L 0 p HN). destruct HP as [-> | ->]; reflexivity.
Qed.
End Props.

(** A run with two stored events, the end of stored events, one more event and Unsub, with every event delivered. *)
Definition demo_run : list (action nat) :=
  [AFire; ALoad 10; ADispatch; ALoad 11; ADispatch; ATask 1 CSend; AEose; ATask 1 CSend; ATask 1 CSend; ATask 1 CSend;
   ATask 0 CSend; ATask 0 CSend; ATask 0 CSend; ALoad 12; ADispatch; ASignal; ATask 0 CSend; ATask 2 CSend; ATask 2 CSend; ATask 2 CSend; ATask 2 CSend;
   AUnsub; AProc 1 true; AProc 1 true; AProc 1 true; AProc 1 true; AProc 0 true; AProc 0 true; AProc 0 true; AProc 0 true; AProc 0 true; AProc 0 true; AProc 0 true].
Example C43_demo : exists s, exec sub_step demo_run sub_init = Some s /\ s_crashed s = false /\
  history s = [LFire; LRecv 0 10; LRecv 1 11; LEoseMsg; LDeliver 1 11; LDeliver 0 10; LRecv 2 12; LSignal; LDeliver 2 12;
               LCancel; LOff; LCloseMsg; LCancel; LChanClose].
Proof. eexists. split; [vm_compute; reflexivity|]. split; reflexivity. Qed.
(** The reader looks the subscription up just before Unsub, and its event arrives after the channel was closed. *)
Example C45_last_event_case : exists s h1 h2,
  exec sub_step [AFire; ALoad 10; AUnsub; AProc 1 true; AProc 1 true; AProc 1 true; AProc 1 true; AProc 0 true; AProc 0 true; AProc 0 true; AProc 0 true;
                 AProc 0 true; AProc 0 true; AProc 0 true; ADispatch] sub_init = Some s /\
  history s = h1 ++ LChanClose :: h2 /\ received_in h2 = 1 /\ (exists p, nth_error (s_procs s) 1 = Some p /\ p_pc p = PEnd).
Proof.
  eexists. exists [LFire; LCancel; LOff; LCloseMsg; LCancel]. exists [LRecv 0 10]. split; [vm_compute; reflexivity|]. split; [reflexivity|].
  split; [reflexivity|]. eexists. split; reflexivity.
Qed.
Example C44_demo_quiet : exists s, exec sub_step (firstn 21 demo_run) sub_init = Some s /\ s_crashed s = false /\ quiet s /\
  precedes LFire (LRecv 0 10) (history s) /\ ~ In LCancel (history s) /\ ~ In LOff (history s).
Proof.
  eexists. split; [vm_compute; reflexivity|]. split; [reflexivity|]. split.
  - intros a H. destruct a as [| | |e| | | |i c| | |i b]; try contradiction; [reflexivity| |].
    + destruct i as [|[|[|[|i]]]]; reflexivity.
    + destruct i as [|[|i]]; reflexivity.
  - split.
    + exists [LFire]. eexists. split; [reflexivity|left; reflexivity].
    + split; cbn; intuition discriminate.
Qed.

(** The order of arrival is not kept: two events, the second delivered first. *)
Theorem C44_order_refuted : exists l (s : sub nat), exec sub_step l sub_init = Some s /\ s_crashed s = false /\
  precedes (LRecv 0 10) (LRecv 1 11) (history s) /\ precedes (LDeliver 1 11) (LDeliver 0 10) (history s).
Proof.
  exists (firstn 13 demo_run). eexists. split; [vm_compute; reflexivity|]. split; [reflexivity|]. split.
  - exists [LFire; LRecv 0 10], [LEoseMsg; LDeliver 1 11; LDeliver 0 10]. split; [reflexivity|cbn; auto].
  - exists [LFire; LRecv 0 10; LRecv 1 11; LEoseMsg; LDeliver 1 11], []. split; [reflexivity|cbn; auto 10].
Qed.

(** The context is cancelled while Subscribe is running: start() passes its live check, Fire then sets live, the relay answers,
    the reader finds the subscription, start() closes the channel, and the event is sent on the closed channel. *)
Definition crash_run : list (action nat) :=
  [ACtx; AProc 0 true; AProc 0 true; AProc 0 true; AFire; ALoad 7; AProc 0 true; AProc 0 true; AProc 0 true; AProc 0 true;
   ADispatch; ATask 0 CSend; ATask 0 CSend].
Theorem C45_no_crash_refuted : exists l (s : sub nat), exec sub_step l sub_init = Some s /\ s_crashed s = true.
Proof. exists crash_run. eexists. split; [vm_compute; reflexivity|reflexivity]. Qed.
(** In the same way a subscription whose context has ended can stay on the relay: it is fired and no CLOSE is ever sent. *)
Theorem C45_close_sent_refuted : exists l (s : sub nat), exec sub_step l sub_init = Some s /\ s_crashed s = false /\ quiet s /\
  In LFire (history s) /\ In LChanClose (history s) /\ ~ In LCloseMsg (history s) /\ s_live s = true.
Proof.
  exists [ACtx; AProc 0 true; AProc 0 true; AProc 0 true; AFire; AProc 0 true; AProc 0 true; AProc 0 true; AProc 0 true].
  eexists. split; [vm_compute; reflexivity|]. split; [reflexivity|]. split.
  - intros a H. destruct a as [| | |e| | | |i c| | |i b]; try contradiction; [reflexivity| |].
    + destruct i; reflexivity.
    + destruct i as [|[|i]]; reflexivity.
  - cbn. repeat split; auto 10. intuition discriminate.
Qed.
(** The hypothesis of the partial theorem is met by runs that close the channel. *)
Example C45_demo : exists s, exec sub_step demo_run sub_init = Some s /\ ~ precedes LCancel LFire (history s) /\ In LChanClose (history s).
Proof.
  eexists. split; [vm_compute; reflexivity|]. split; [|cbn; auto 20].
  intro Q. apply (proj1 (precedes_earlier _ _ _)) in Q. cbn in Q.
  repeat (apply earlier_inv in Q as [[Q1 Q2]|Q]; [try discriminate Q1; destruct Q2|]).
  destruct Q as (l2 & l1 & Q & _). destruct l2; discriminate.
Qed.

Print Assumptions C43_signal_at_most_once. Print Assumptions C43_signal_after_stored. Print Assumptions C43_drop_reason. Print Assumptions C43_signal_comes.
Print Assumptions C44_delivered_once. Print Assumptions C44_numbers_distinct. Print Assumptions C44_all_delivered. Print Assumptions C44_terminates. Print Assumptions C44_no_deadlock.
Print Assumptions C44_order_refuted.
Print Assumptions C45_close_once. Print Assumptions C45_channel_closed_once. Print Assumptions C45_channel_closes. Print Assumptions C45_no_crash_partial.
Print Assumptions C45_dead_after_close_partial. Print Assumptions C45_no_crash_refuted. Print Assumptions C45_close_sent_refuted.

Print Assumptions C43_signal_after_stored.
Print Assumptions C43_drop_reason.
Print Assumptions C43_signal_comes.
Print Assumptions C44_numbers_distinct.
Print Assumptions C44_all_delivered.
Print Assumptions C44_terminates.
Print Assumptions C44_no_deadlock.
Print Assumptions C45_channel_closed_once.
Print Assumptions C45_channel_closes.
Print Assumptions C45_last_event.
Print Assumptions C45_unsub_removes.
Print Assumptions C45_no_crash_partial.
Print Assumptions C45_no_crash_refuted.
Print Assumptions C45_close_sent_refuted.
