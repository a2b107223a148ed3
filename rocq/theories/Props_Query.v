(** C119: QueryEvents and QuerySync give everything the relay had stored, and end. *)
From Verif Require Import Base Machine SubModel SubProofs Props_Sub QueryModel.
Import ListNotations.

Section Props.
Context {E : Type}.
Implicit Types (q : query E).

(** The step of the subscription inside, if any. *)
Definition under (a : qaction E) : option (action E) :=
  match a with
  | QNotConnected | QReady | QRelay | QClosedMsg => None
  | QFire => Some AFire | QFireFailed => Some AFireFailed | QCtx => Some ACtx | QRelayUnsub => Some AUnsub
  | QLoad e => Some (ALoad e) | QDispatch => Some ADispatch | QEose => Some AEose | QClosedPut => Some AClosed
  | QSignal => Some ASignal | QTask i c => Some (ATask i c) | QProc i b => Some (AProc i b) | QWatch _ => Some AUnsub
  end.
Ltac qcases H :=
  unfold query_step in H;
  match type of H with context [if s_crashed ?s then _ else _] => destruct (s_crashed s) eqn:?HC; [discriminate H|] end;
  match type of H with context [match ?a with QNotConnected => _ | _ => _ end] => destruct a as [| | | | | | |?e| | | | | |?i ?c|?i ?b|?w] end;
  unfold lift in H;
  repeat match type of H with
  | (if ?b then _ else _) = _ => destruct b eqn:?; [|try discriminate H]
  | match ?n with O => _ | S _ => _ end = _ => destruct n eqn:?; [try discriminate H|]
  | match ?o with Some _ => _ | None => _ end = _ => destruct o eqn:?
  | option_map _ (option_map _ ?x) = _ => destruct x as [?s|] eqn:?ST; [|discriminate H]; cbn [option_map] in H
  | option_map _ ?x = _ => destruct x as [?s|] eqn:?ST; [|discriminate H]; cbn [option_map] in H
  end; try discriminate H; injection H as <-; cbn [q_sub q_phase q_ctx q_relay q_reason q_blocked q_got with_sub with_phase] in *.
Lemma step_under a q q' : query_step a q = Some q' -> match under a with Some b => sub_step b (q_sub q) = Some (q_sub q') | None => q_sub q' = q_sub q end.
Proof. intro H. qcases H; cbn [under]; first [reflexivity|assumption]. Qed.
Lemma sub_reached q : reaches query_step query_init q -> reachable (q_sub q).
Proof.
  apply (invariant query_step (fun q => reachable (q_sub q))); [exists []; reflexivity|].
  intros a q1 q2 I H. pose proof (step_under _ _ _ H) as U. destruct (under a) as [b|].
  - eapply reaches_trans; [exact I|]. eapply reaches_step. exact U.
  - rewrite U. exact I.
Qed.
Lemma exec_reaches l q : exec query_step l query_init = Some q -> reaches query_step query_init q. Proof. intro H. exists l. exact H. Qed.
Lemma runs (P : list (qaction E) -> query E -> Prop) : P [] query_init -> (forall l a q q', P l q -> exec query_step l query_init = Some q -> query_step a q = Some q' -> P (l ++ [a]) q') -> forall l q, exec query_step l query_init = Some q -> P l q.
Proof.
  intros H0 HS l. induction l as [|a l IH] using rev_ind; intros q H; [cbn in H; injection H as <-; exact H0|].
  rewrite exec_app in H. destruct (exec query_step l query_init) as [q1|] eqn:E1; [|discriminate]. cbn [exec] in H.
  destruct (query_step a q1) as [q2|] eqn:E2; [|discriminate]. injection H as <-. eapply HS; [apply IH; reflexivity|exact E1|exact E2].
Qed.

Ltac sproj := cbn [s_live s_eosed s_cancelled s_deleted s_fired s_lock s_wg s_waiter s_closed s_crashed s_reader s_tasks s_procs s_log
  with_proc set_task set_proc log t_ev t_added t_ph p_kind p_pc] in *; unfold log in *.
(** All ways a step of the subscription can be taken, with the new state spelled out. *)
Ltac step_cases H :=
  unfold sub_step in H;
  match type of H with context [if s_crashed ?s then _ else _] => destruct (s_crashed s) eqn:?HC; [discriminate H|] end;
  match type of H with context [match ?a with AFire => _ | _ => _ end] => destruct a as [| | |?e| | | |?i ?c| | |?i ?conn] | _ => idtac end;
  repeat match type of H with
  | (if ?b then _ else _) = _ => destruct b eqn:?
  | match ?o with Some _ => _ | None => _ end = _ => destruct o eqn:?
  | match ?w with WNone => _ | _ => _ end = _ => destruct w eqn:?
  | match ?n with O => _ | S _ => _ end = _ => destruct n eqn:?
  | task_step _ ?t _ _ = _ => unfold task_step in H; destruct (t_ph t) eqn:?
  | match ?c with CSend => _ | CDone => _ end = _ => destruct c
  | proc_step _ ?p _ _ = _ => unfold proc_step in H; destruct (p_pc p) eqn:?; cbv zeta in H
  | None = Some _ => discriminate H
  end; try discriminate H; injection H as <-; sproj.

(** ** What it gives. *)
Definition delivered (h : list (obs E)) : list E := flat_map (fun o => match o with LDeliver _ e => [e] | _ => [] end) h.
Lemma step_delivered b s s' : sub_step b s = Some s' -> delivered (history s') = delivered (history s) ++ match b with ATask i c => handed i c s | _ => [] end.
Proof.
  unfold history, delivered. intro H. unfold handed. step_cases H; rewrite ?flat_map_app; cbn [flat_map app rev]; rewrite ?flat_map_app, ?app_nil_r; cbn [flat_map]; rewrite ?app_nil_r; try reflexivity.
  all: try (match goal with HT : nth_error _ _ = Some ?t, HP : t_ph ?t = _ |- _ => rewrite ?HT, ?HP end; rewrite ?app_nil_r; reflexivity).
  all: try (match goal with HT : nth_error (s_tasks _) _ = Some ?t, HP : t_ph ?t = _, HCl : s_closed _ = _ |- _ => rewrite ?HT, ?HP, ?HCl end; rewrite ?app_nil_r; reflexivity).
  all: try (match goal with |- context [if ?b then _ else _] => destruct b end; cbn [rev flat_map]; rewrite ?flat_map_app; cbn [flat_map]; rewrite ?app_nil_r; reflexivity).
Qed.
(** The result is what was delivered, in that order. *)
Lemma got_delivered q : reaches query_step query_init q -> q_got q = delivered (history (q_sub q)).
Proof.
  apply (invariant query_step (fun q => q_got q = delivered (history (q_sub q)))); [reflexivity|].
  intros a q1 q2 I H. qcases H; try exact I; rewrite (step_delivered _ _ _ ST), I, ?app_nil_r; reflexivity.
Qed.

(** Nothing but the relay's events and its EOSE comes from outside: the contexts stay, the relay does not refuse, the write goes out. *)
Definition calm (a : qaction E) : Prop := match a with QNotConnected | QFireFailed | QCtx | QRelay | QClosedMsg => False | _ => True end.
(** In such a run the subscription is ended only after the signal. *)
Record Calm (q : query E) : Prop := mkCalm {
  c_relay : q_relay q = false; c_reason : q_reason q = false; c_blocked : q_blocked q = 0; c_ctx : q_ctx q = false;
  c_phase : match q_phase q with
            | QSubscribing | QWatching => s_procs (q_sub q) = [mkP KStart PWait] /\ s_cancelled (q_sub q) = false
            | QGone => In LSignal (s_log (q_sub q))
            | QFailed => False
            end;
  c_after : forall l2 o l1, s_log (q_sub q) = l2 ++ o :: l1 -> o = LCancel \/ o = LOff -> In LSignal l1;
  c_wait : s_waiter (q_sub q) = WDone -> In LSignal (s_log (q_sub q));
  c_kinds : forall p, In p (s_procs (q_sub q)) -> p_kind p <> KClosed
}.
Definition outside (b : action E) : Prop := match b with ACtx | AFireFailed | AUnsub | AClosed => True | _ => False end.
Lemma log_grows b (s s' : sub E) : sub_step b s = Some s' -> s_log s' = s_log s \/ exists o, s_log s' = o :: s_log s.
Proof. intro H. step_cases H; eauto. destruct conn; eauto. Qed.
Lemma undisturbed b (s s' : sub E) : sub_step b s = Some s' -> ~ outside b -> s_procs s = [mkP KStart PWait] -> s_cancelled s = false ->
  s_procs s' = [mkP KStart PWait] /\ s_cancelled s' = false /\ (s_log s' = s_log s \/ exists o, o <> LCancel /\ o <> LOff /\ s_log s' = o :: s_log s).
Proof.
  intros H NO P C. assert (NP : forall i p, nth_error (s_procs s) i = Some p -> p_pc p = PWait).
  { intros i p N. rewrite P in N. destruct i as [|[|i]]; cbn in N; [injection N as <-; reflexivity|discriminate|discriminate]. }
  step_cases H; try (exfalso; apply NO; exact Logic.I);
    try (match goal with HN : nth_error (s_procs _) _ = Some ?p |- _ => pose proof (NP _ _ HN) end; congruence);
    split; try assumption; split; try assumption; try (left; reflexivity); right; eexists; (split; [|split; [|reflexivity]]); discriminate.
Qed.
Lemma kinds_kept b (s s' : sub E) : sub_step b s = Some s' -> b <> AClosed -> (forall p, In p (s_procs s) -> p_kind p <> KClosed) -> forall p, In p (s_procs s') -> p_kind p <> KClosed.
Proof.
  intros H NC K. assert (U : forall i p c, nth_error (s_procs s) i = Some p -> forall p', In p' (upd (s_procs s) i (mkP (p_kind p) c)) -> p_kind p' <> KClosed).
  { intros i p c HN p' HI. apply In_nth_error in HI as (j & HJ). apply nth_upd in HJ as [[_ ->]|[_ HJ]]; [cbn; apply K; eapply nth_error_In; exact HN|apply K; eapply nth_error_In; exact HJ]. }
  step_cases H; try exact K; try (eapply U; eassumption); try congruence.
  intros p HI. apply in_app_or in HI as [HI|[<-|[]]]; [apply K; exact HI|discriminate].
Qed.
Lemma wait_kept b (s s' : sub E) : sub_step b s = Some s' -> (s_waiter s = WDone -> In LSignal (s_log s)) -> s_waiter s' = WDone -> In LSignal (s_log s').
Proof. intros H K. step_cases H; cbn [In]; try exact K; try discriminate; try (intro Q; right; apply K; congruence); try (intros _; left; reflexivity). destruct conn; [intro Q; right; auto|exact K]. Qed.
Lemma order_keep (o : obs E) lg : (forall l2 x l1, lg = l2 ++ x :: l1 -> x = LCancel \/ x = LOff -> In LSignal l1) -> (o = LCancel \/ o = LOff -> In LSignal lg) ->
  forall l2 x l1, o :: lg = l2 ++ x :: l1 -> x = LCancel \/ x = LOff -> In LSignal l1.
Proof. intros H HO l2 x l1 EQ HX. destruct l2 as [|y l2]; cbn [app] in EQ; injection EQ as -> EQ; [subst; auto|]. eapply H; eassumption. Qed.
Lemma calm_inv l q : Forall calm l -> exec query_step l query_init = Some q -> Calm q.
Proof.
  apply (invariant_on query_step calm Calm).
  { constructor; try reflexivity; cbn; [auto|intros l2 o l1 H; destruct l2; discriminate|discriminate|intros p [<-|[]]; discriminate]. }
  intros a q1 q2 CA [C1 C2 C3 C4 C5 C6 CW C7] H.
  assert (NS : forall b s', sub_step b (q_sub q1) = Some s' -> ~ outside b ->
     match q_phase q1 with QSubscribing | QWatching => s_procs s' = [mkP KStart PWait] /\ s_cancelled s' = false | QGone => In LSignal (s_log s') | QFailed => False end /\
     (forall l2 o l1, s_log s' = l2 ++ o :: l1 -> o = LCancel \/ o = LOff -> In LSignal l1) /\ (forall p, In p (s_procs s') -> p_kind p <> KClosed)).
  { intros b s' HS NO. split; [|split].
    - destruct (q_phase q1); try contradiction.
      + destruct C5 as [P C]. destruct (undisturbed _ _ _ HS NO P C) as (A & B' & _). auto.
      + destruct C5 as [P C]. destruct (undisturbed _ _ _ HS NO P C) as (A & B' & _). auto.
      + destruct (log_grows _ _ _ HS) as [-> |[o ->]]; [exact C5|right; exact C5].
    - destruct (q_phase q1); try contradiction.
      1,2: destruct C5 as [P C]; destruct (undisturbed _ _ _ HS NO P C) as (_ & _ & [-> |(o & N1 & N2 & ->)]); [exact C6|]; apply order_keep; [exact C6|]; intros [Q|Q]; congruence.
      destruct (log_grows _ _ _ HS) as [-> |[o ->]]; [exact C6|]. apply order_keep; [exact C6|auto].
    - eapply kinds_kept; [exact HS|intros ->; apply NO; exact Logic.I|exact C7]. }
  qcases H; cbn [calm] in CA; try contradiction;
    try (destruct (NS _ _ ST) as (X1 & X2 & X3); [cbn; tauto|]; constructor; try assumption; exact (wait_kept _ _ _ ST CW)).
  - constructor; try assumption. cbn [q_phase q_sub]. unfold is_subscribing in Heqb. destruct (q_phase q1); try discriminate; exact C5.
  - rewrite C1 in Heqb. discriminate.
  - congruence.
  - apply andb_true_iff in Heqb as [W R]. unfold is_watching in W. destruct (q_phase q1) eqn:PH; try discriminate.
    assert (LG : s_log s = s_log (q_sub q1)) by (clear -ST; step_cases ST; reflexivity).
    constructor; cbn [q_sub q_phase q_ctx q_relay q_reason q_blocked q_got]; try assumption.
    + destruct w; try assumption; reflexivity.
    + rewrite LG. apply CW. destruct w; cbn [ready] in R; try congruence. destruct (s_waiter (q_sub q1)); congruence.
    + rewrite LG. exact C6.
    + exact (wait_kept _ _ _ ST CW).
    + eapply kinds_kept; [exact ST|discriminate|exact C7].
Qed.

(** ** C119 *)
(** What QuerySync gives is what was delivered, and only that: events the relay sent after the request, each reception once. *)
Theorem C119_result l q r : exec query_step l query_init = Some q -> query_sync q = Some (Ok r) -> r = delivered (history (q_sub q)).
Proof.
  intros H S. rewrite <- (got_delivered q) by (exists l; exact H). unfold query_sync in S. destruct (q_phase q); try discriminate; destruct (s_closed (q_sub q)); congruence.
Qed.
(** A relay that answers, and a caller and a connection that stay: QuerySync ends only after the relay's EOSE, and everything
    the relay sent between the request and its EOSE is in the result. *)
Theorem C119_complete l q r : Forall calm l -> exec query_step l query_init = Some q -> query_sync q = Some (Ok r) ->
  In LEoseMsg (history (q_sub q)) /\
  forall i e, precedes LFire (LRecv i e) (history (q_sub q)) -> precedes (LRecv i e) LEoseMsg (history (q_sub q)) -> In e r.
Proof.
  intros CA H S. pose proof (C119_result _ _ _ H S) as ->. pose proof (calm_inv _ _ CA H) as [_ _ _ _ _ C6 _ _].
  pose proof (sub_reached q (exec_reaches _ _ H)) as R.
  assert (CL : In LChanClose (history (q_sub q))).
  { assert (X : s_closed (q_sub q) = true) by (unfold query_sync in S; destruct (q_phase q); try discriminate; destruct (s_closed (q_sub q)); congruence).
    clear -R X. revert X. apply (invariant sub_step (fun s => s_closed s = true -> In LChanClose (history s))) with (s0 := sub_init); [discriminate| |exact R].
    intros b s s' I HS. unfold history in *. rewrite !in_rev1 in *. step_cases HS; cbn [In]; auto. destruct conn; cbn [In]; auto. }
  assert (AF : forall h1 o h2, history (q_sub q) = h1 ++ o :: h2 -> o = LCancel \/ o = LOff -> In LSignal h1).
  { intros h1 o h2 Q HO. unfold history in Q. apply (f_equal (@rev _)) in Q. rewrite rev_involutive, rev_app_distr in Q. cbn [rev] in Q. rewrite <- app_assoc in Q. cbn [app] in Q.
    pose proof (C6 _ _ _ Q HO) as X. rewrite in_rev1 in X. exact X. }
  apply in_split in CL as (k1 & k2 & CL). destruct (C45_channel_closed_once _ _ _ R CL) as (LC & _).
  apply in_split in LC as (m1 & m2 & ->). rewrite <- app_assoc in CL. cbn [app] in CL. pose proof (AF _ _ _ CL (or_introl eq_refl)) as SG.
  apply in_split in SG as (h1 & h2 & ->). rewrite <- app_assoc in CL. cbn [app] in CL. set (hh := h2 ++ LCancel :: m2 ++ LChanClose :: k2) in *.
  destruct (C43_signal_after_stored _ _ _ R CL) as (EO & ST & _). split; [rewrite CL; apply in_or_app; auto|].
  intros i e PF PE.
  assert (PE1 : precedes (LRecv i e) LEoseMsg h1).
  { destruct PE as (g1 & g2 & Q & IR). apply in_split in EO as (e1 & e2 & ->). exists e1, e2. split; [reflexivity|].
    assert (e1 = g1) as ->; [|exact IR]. rewrite CL in Q. rewrite <- app_assoc in Q. cbn [app] in Q.
    assert (O1 : ~ In LEoseMsg e1). { rewrite <- app_assoc in CL. cbn [app] in CL. pose proof (hist_ok _ _ _ _ R CL) as X. cbn [ok_obs] in X. rewrite in_rev1 in X. exact X. }
    assert (O2 : ~ In LEoseMsg g1). { assert (CL2 : history (q_sub q) = g1 ++ LEoseMsg :: g2) by (rewrite CL, <- app_assoc; exact Q). pose proof (hist_ok _ _ _ _ R CL2) as X. cbn [ok_obs] in X. rewrite in_rev1 in X. exact X. }
    clear -Q O1 O2. revert g1 Q O2. induction e1 as [|x e1 IH]; intros [|y g1] Q O2; cbn [app] in Q.
    - reflexivity.
    - injection Q as <- _. exfalso. apply O2. left. reflexivity.
    - injection Q as -> _. exfalso. apply O1. left. reflexivity.
    - injection Q as -> Q. f_equal. apply IH; [intro X; apply O1; right; exact X|exact Q|intro X; apply O2; right; exact X]. }
  destruct (ST i e PE1) as [D|D].
  { unfold delivered. apply in_flat_map. exists (LDeliver i e). split; [rewrite CL; apply in_or_app; auto|left; reflexivity]. }
  exfalso. apply in_split in D as (d1 & d2 & ->). rewrite <- app_assoc in CL. cbn [app] in CL.
  pose proof (C43_drop_reason _ _ _ _ _ R CL) as DR. pose proof (hist_ok _ _ _ _ R CL) as (DRC & _). rewrite in_rev1 in DRC.
  assert (NS : forall o, o = LCancel \/ o = LOff -> ~ In o d1).
  { intros o HO IO. apply in_split in IO as (x1 & x2 & ->). rewrite <- app_assoc in CL. cbn [app] in CL. pose proof (AF _ _ _ CL HO) as SG.
    apply in_split in SG as (y1 & y2 & ->). 
    assert (Q : history (q_sub q) = ((y1 ++ LSignal :: y2) ++ o :: x2 ++ LDrop i e :: d2) ++ LSignal :: hh).
    { rewrite CL. rewrite <- !app_assoc. cbn [app]. rewrite <- !app_assoc. reflexivity. }
    apply (C43_signal_at_most_once _ _ _ R) in Q as [Q _]. apply Q. apply in_or_app. left. apply in_or_app. right. left. reflexivity. }
  destruct DR as [DR|[DR|DR]]; [exact (NS _ (or_introl eq_refl) DR)|exact (NS _ (or_intror eq_refl) DR)|].
  apply DR. apply in_split in DRC as (x1 & x2 & ->). destruct PF as (g1 & g2 & Q & FI).
  rewrite <- app_assoc in CL. cbn [app] in CL. assert (x1 = g1) as ->; [|apply in_or_app; left; exact FI].
  assert (O1 : ~ In (LRecv i e) x1). { intro X. exact (C44_numbers_distinct _ _ _ _ _ R CL e X). }
  assert (O2 : ~ In (LRecv i e) g1). { intro X. exact (C44_numbers_distinct _ _ _ _ _ R Q e X). }
  rewrite CL in Q. clear -Q O1 O2. revert g1 Q O2. induction x1 as [|x x1 IH]; intros [|y g1] Q O2; cbn [app] in Q.
  - reflexivity.
  - injection Q as <- _. exfalso. apply O2. left. reflexivity.
  - injection Q as -> _. exfalso. apply O1. left. reflexivity.
  - injection Q as -> Q. f_equal. apply IH; [intro X; apply O1; right; exact X|exact Q|intro X; apply O2; right; exact X].
Qed.
(** Every event of the result is a different reception, after the request went out. *)
Definition numbered (h : list (obs E)) : list (nat * E) := flat_map (fun o => match o with LDeliver i e => [(i, e)] | _ => [] end) h.
Theorem C119_each_once l q r : exec query_step l query_init = Some q -> query_sync q = Some (Ok r) ->
  exists ks, r = map snd ks /\ NoDup (map fst ks) /\ forall i e, In (i, e) ks -> In (LRecv i e) (history (q_sub q)).
Proof.
  intros H S. exists (numbered (history (q_sub q))). pose proof (sub_reached q (exec_reaches _ _ H)) as R. split; [|split].
  - rewrite (C119_result _ _ _ H S). unfold delivered, numbered. induction (history (q_sub q)) as [|o h IH]; [reflexivity|]. cbn [flat_map]. rewrite map_app, IH. destruct o; reflexivity.
  - assert (U : forall h1 i e h2, history (q_sub q) = h1 ++ LDeliver i e :: h2 -> forall e', ~ In (LDeliver i e') h2).
    { intros h1 i e h2 Q. destruct (C44_delivered_once _ _ _ _ _ R Q) as (_ & _ & X). intro e'. apply X. }
    revert U. generalize (history (q_sub q)). induction l0 as [|o h IH]; intro U; [constructor|]. unfold numbered in *. cbn [flat_map]. rewrite map_app.
    assert (IH' : NoDup (map fst (flat_map (fun o => match o with LDeliver i e => [(i, e)] | _ => [] end) h))).
    { apply IH. intros h1 i e h2 Q. apply (U (o :: h1) i e h2). rewrite Q. reflexivity. }
    destruct o; try exact IH'. cbn [map app fst]. constructor; [|exact IH']. intro X. apply in_map_iff in X as ([j e'] & Q & X). cbn [fst] in Q. subst j.
    apply in_flat_map in X as (o & IO & X). destruct o; try contradiction. destruct X as [X|[]]. injection X as -> ->. exact (U [] _ _ _ eq_refl _ IO).
  - intros i e HI. unfold numbered in HI. apply in_flat_map in HI as (o & IO & X). destruct o; try contradiction. destruct X as [X|[]]. injection X as -> ->.
    apply in_split in IO as (h1 & h2 & Q). destruct (C44_delivered_once _ _ _ _ _ R Q) as (X & _). rewrite Q. apply in_or_app. auto.
Qed.

(** *** It ends. *)
(** Steps of the program itself, as against those of the relay, the caller and the network. *)
Definition qinternal (a : qaction E) : Prop := match a with QClosedPut | QSignal | QTask _ _ | QProc _ _ | QWatch _ => True | _ => False end.
Definition qquiet q : Prop := forall a, qinternal a -> query_step a q = None.
Definition qweight q : nat := weight (q_sub q) + 10 * q_blocked q + (if is_watching q then 9 else 0).
Lemma sum_app {X} (f : X -> nat) a b : total f (a ++ b) = total f a + total f b.
Proof. unfold total. induction a as [|x a IH]; cbn; [reflexivity|]. rewrite IH. lia. Qed.
(** The steps of the program run out, whatever their order. *)
Theorem C119_terminates a q q' : qinternal a -> query_step a q = Some q' -> qweight q' < qweight q.
Proof.
  intros IA H. unfold qweight. qcases H; try contradiction; clear IA.
  - assert (W : weight s = weight (q_sub q) + 9). { step_cases ST. unfold weight. sproj. rewrite sum_app. cbn [total fold_right p_weight p_pc]. lia. }
    rewrite W. unfold is_watching. cbn [q_phase with_sub with_phase]. destruct (q_phase q); lia.
  - pose proof (internal_decreases ASignal _ _ Logic.I ST). unfold is_watching. cbn [q_phase with_sub with_phase]. destruct (q_phase q); lia.
  - pose proof (internal_decreases (ATask _ _) _ _ Logic.I ST). unfold is_watching. cbn [q_phase with_sub with_phase]. destruct (q_phase q); lia.
  - pose proof (internal_decreases (AProc _ _) _ _ Logic.I ST). unfold is_watching. cbn [q_phase with_sub with_phase]. destruct (q_phase q); lia.
  - apply andb_true_iff in Heqb as [WA _]. rewrite WA. assert (W : weight s = weight (q_sub q) + 8). { step_cases ST. unfold weight. sproj. rewrite sum_app. cbn [total fold_right p_weight p_pc]. lia. }
    rewrite W. cbn [is_watching q_phase]. lia.
Qed.
(** What has happened is remembered until the goroutine has seen it. *)
Definition happened (l : list (qaction E)) q : Prop := In QCtx l \/ In QRelay l \/ In QClosedMsg l \/ In LEoseMsg (history (q_sub q)).
Lemma remembered l q : exec query_step l query_init = Some q ->
  (In QCtx l -> q_ctx q = true) /\ (In QRelay l -> q_relay q = true) /\ (In QClosedMsg l -> q_blocked q <> 0 \/ q_reason q = true \/ q_phase q = QGone) /\
  (In QReady l -> q_phase q = QWatching \/ q_phase q = QGone) /\
  (q_phase q = QGone -> exists i p, nth_error (s_procs (q_sub q)) (S i) = Some p /\ p_kind p = KUnsub) /\ s_procs (q_sub q) <> [].
Proof.
  revert l q. apply runs; [cbn; repeat split; try tauto; discriminate|].
  intros l a q1 q2 (I1 & I2 & I3 & I4 & I5 & I6) _ H.
  assert (KP : forall b s', sub_step b (q_sub q1) = Some s' -> (forall i p, nth_error (s_procs (q_sub q1)) i = Some p -> exists p', nth_error (s_procs s') i = Some p' /\ p_kind p' = p_kind p)).
  { intros b s' HS i p HN.
    assert (U : forall j p0 c, nth_error (s_procs (q_sub q1)) j = Some p0 -> exists p', nth_error (upd (s_procs (q_sub q1)) j (mkP (p_kind p0) c)) i = Some p' /\ p_kind p' = p_kind p).
    { intros j p0 c HJ. destruct (Nat.eq_dec j i) as [->|NE]; [|rewrite nth_upd_other by exact NE; eauto]. eexists. split; [apply nth_upd_same; apply nth_error_Some; congruence|]. cbn. congruence. }
    step_cases HS; eauto; eexists; (split; [rewrite nth_error_app1; [exact HN|apply nth_error_Some; congruence]|reflexivity]). }
  assert (KN : forall b s', sub_step b (q_sub q1) = Some s' -> s_procs s' <> []).
  { intros b s' HS Q. destruct (s_procs (q_sub q1)) as [|p ps] eqn:PS; [congruence|]. destruct (KP _ _ HS 0 p) as (p' & X & _); [reflexivity|]. rewrite Q in X. discriminate. }
  assert (KG : forall b s', sub_step b (q_sub q1) = Some s' -> q_phase q1 = QGone -> exists i p, nth_error (s_procs s') (S i) = Some p /\ p_kind p = KUnsub).
  { intros b s' HS PG. destruct (I5 PG) as (i & p & HN & HK). destruct (KP _ _ HS _ _ HN) as (p' & X & Y). exists i, p'. split; [exact X|congruence]. }
  assert (LA : forall x, In x (l ++ [a]) -> x = a \/ In x l) by (intros x HX; apply in_app_or in HX as [HX|[HX|[]]]; auto).
  qcases H.
  all: repeat match goal with HB : _ && _ = true |- _ => apply andb_true_iff in HB as [? ?] end.
  all: unfold is_subscribing, is_watching in *.
  all: repeat split; try (intro X; apply LA in X as [X|X]; [try discriminate X|]); auto.
  all: try (eapply KN; eassumption); try (eapply KG; eassumption); try discriminate.
  all: try (destruct (q_phase q1); try discriminate; try tauto; apply I4 in X; destruct X; discriminate).
  all: try (specialize (I3 X); destruct I3 as [I3|[I3|I3]]; auto; fail).
  all: try (right; left; reflexivity).
  1-3: destruct (q_phase q1); try discriminate; specialize (I3 X); destruct I3 as [I3|[I3|I3]]; auto; discriminate.
  intros _. destruct (s_procs (q_sub q1)) as [|p ps] eqn:PS; [congruence|]. step_cases ST. exists (length ps). eexists. rewrite PS. cbn [app nth_error].
  rewrite nth_error_app2 by lia. rewrite Nat.sub_diag. split; reflexivity.
Qed.
(** When one of the four things the goroutine waits for has happened and the program has nothing left to do, QuerySync has returned. *)
Theorem C119_ends l q : exec query_step l query_init = Some q -> s_crashed (q_sub q) = false -> qquiet q -> In QReady l -> happened l q ->
  query_sync q = Some (Ok (q_got q)) /\ q_phase q = QGone.
Proof.
  intros H CR Q RD HP. destruct (remembered _ _ H) as (I1 & I2 & I3 & I4 & I5 & _). specialize (I4 RD).
  pose proof (sub_reached q (exec_reaches _ _ H)) as R. pose proof (proj2 (reachable_inv _ R) CR) as I.
  assert (RE : reading q = true) by (unfold reading; destruct I4 as [-> | ->]; reflexivity).
  assert (SQ : quiet (q_sub q)).
  { intros a IA. destruct a; try contradiction.
    - specialize (Q QSignal Logic.I). unfold query_step in Q. rewrite CR in Q. unfold lift in Q. destruct (sub_step ASignal (q_sub q)); [discriminate|reflexivity].
    - specialize (Q (QTask i c) Logic.I). unfold query_step in Q. rewrite CR, RE in Q. unfold lift in Q. destruct (handed i c (q_sub q)); cbn [negb] in Q; (destruct (sub_step (ATask i c) (q_sub q)); [discriminate|reflexivity]).
    - specialize (Q (QProc i connected) Logic.I). unfold query_step in Q. rewrite CR in Q. unfold lift in Q. destruct (sub_step (AProc i connected) (q_sub q)); [discriminate|reflexivity]. }
  assert (PG : q_phase q = QGone).
  { destruct I4 as [PW|PG]; [exfalso|exact PG].
    assert (NR : forall c, ready c q = false).
    { intro c. specialize (Q (QWatch c) Logic.I). unfold query_step in Q. rewrite CR in Q. unfold is_watching in Q. rewrite PW in Q. cbn [andb] in Q. destruct (ready c q); [|reflexivity].
      unfold lift, sub_step in Q. rewrite CR in Q. discriminate. }
    pose proof (NR CClosed) as N1. pose proof (NR CEose) as N2. pose proof (NR CCtx) as N3. pose proof (NR CRelay) as N4. cbn [ready] in *.
    destruct HP as [HP|[HP|[HP|HP]]].
    - rewrite (I1 HP) in N3. discriminate.
    - rewrite (I2 HP) in N4. discriminate.
    - destruct (I3 HP) as [X|[X|X]]; try congruence. specialize (Q QClosedPut Logic.I). unfold query_step in Q. rewrite CR in Q. destruct (q_blocked q); [congruence|]. rewrite N1 in Q.
      unfold lift, sub_step in Q. rewrite CR in Q. discriminate.
    - pose proof (C43_signal_comes _ R CR SQ HP) as SG. unfold history in SG. rewrite in_rev1 in SG. apply (i_signal _ I) in SG. rewrite SG in N2. discriminate. }
  split; [|exact PG]. unfold query_sync. rewrite PG. destruct (I5 PG) as (i & p & HN & HK).
  assert (PE : s_cancelled (q_sub q) = true).
  { destruct (quiet_done _ I CR SQ) as (_ & P & _). pose proof (i_pcancel _ I _ _ HN) as PC. destruct (P _ _ HN) as [X|[X _]]; rewrite X in PC; [exact PC|].
    assert (IS : is_start p = true) by (apply (i_pstart _ I _ _ HN); rewrite X; reflexivity). unfold is_start in IS. rewrite HK in IS. discriminate. }
  apply (i_cancel _ I) in PE. assert (CC : In LChanClose (history (q_sub q))) by (apply C45_channel_closes; auto; unfold history; rewrite in_rev1; exact PE).
  unfold history in CC. rewrite in_rev1 in CC. apply (i_chan _ I) in CC. rewrite CC. reflexivity.
Qed.

(** *** It does not crash, unless it is ended before the request is written. *)
Lemma log_prefix l (q q' : query E) : exec query_step l q = Some q' -> exists g, s_log (q_sub q') = g ++ s_log (q_sub q).
Proof.
  revert q. induction l as [|a l IH]; intros q H; cbn [exec] in H; [injection H as <-; exists []; reflexivity|].
  destruct (query_step a q) as [q1|] eqn:EQ; [|discriminate]. destruct (IH _ H) as (g & ->). pose proof (step_under _ _ _ EQ) as U. destruct (under a) as [b|]; [|rewrite U; eauto].
  destruct (log_grows _ _ _ U) as [-> |[o ->]]; [eauto|]. exists (g ++ [o]). rewrite <- app_assoc. reflexivity.
Qed.
Lemma fire_first_run pre post q : Forall calm pre -> exec query_step (pre ++ QFire :: post) query_init = Some q -> ~ precedes LCancel LFire (history (q_sub q)).
Proof.
  intros CA H. pose proof (sub_reached q (exec_reaches _ _ H)) as R.
  rewrite exec_app in H. destruct (exec query_step pre query_init) as [q1|] eqn:E1; [|discriminate]. cbn [exec] in H. destruct (query_step QFire q1) as [q2|] eqn:E2; [|discriminate].
  destruct (log_prefix _ _ _ H) as (g & LG). pose proof (sub_reached q1 (exec_reaches _ _ E1)) as R1. pose proof (calm_inv _ _ CA E1) as [_ _ _ _ C5 _ _ _].
  unfold query_step in E2. destruct (s_crashed (q_sub q1)) eqn:CR; [discriminate|]. destruct (is_subscribing q1) eqn:SB; [|discriminate]. unfold is_subscribing in SB. destruct (q_phase q1); try discriminate.
  destruct C5 as [_ NC]. pose proof (proj2 (reachable_inv _ R1) CR) as I. assert (NL : ~ In LCancel (s_log (q_sub q1))) by (intro X; apply (i_cancel _ I) in X; congruence).
  unfold lift, sub_step in E2. rewrite CR in E2. destruct (s_fired (q_sub q1)) eqn:FI; [discriminate|]. cbn [option_map] in E2. injection E2 as <-. cbn [with_sub q_sub s_log] in LG. unfold log in LG.
  intro P. apply precedes_earlier in P. destruct P as (l2 & l1 & Q & IC). rewrite LG in Q.
  assert (O1 : ~ In LFire (s_log (q_sub q1))) by (intro X; apply (i_fired _ I) in X; congruence).
  pose proof (proj1 (reachable_inv _ R)) as OR. rewrite LG in OR. 
  assert (G : forall (g l2 : list (obs E)) a b, in_order ok_obs (g ++ LFire :: a) -> ~ In LFire a -> g ++ LFire :: a = l2 ++ LFire :: b -> a = b).
  { clear. induction g as [|x g IH]; intros [|y l2] a b O N Q; cbn [app] in *.
    - congruence.
    - injection Q as <- Q. exfalso. apply N. rewrite Q. apply in_or_app. right. left. reflexivity.
    - injection Q as -> Q. destruct O as [O _]. cbn [ok_obs] in O. exfalso. apply O. apply in_or_app. right. left. reflexivity.
    - injection Q as -> Q. destruct O as [_ O]. eapply IH; eassumption. }
  apply G in Q; [|exact OR|exact O1]. subst l1. contradiction.
Qed.
Theorem C119_no_crash_partial pre post q : Forall calm pre -> exec query_step (pre ++ QFire :: post) query_init = Some q -> s_crashed (q_sub q) = false.
Proof. intros CA H. apply C45_no_crash_partial; [exact (sub_reached q (exec_reaches _ _ H))|exact (fire_first_run _ _ _ CA H)]. Qed.
Lemma fired_in l q : exec query_step l query_init = Some q -> s_fired (q_sub q) = true -> In QFire l.
Proof.
  revert l q. apply (runs (fun l q => s_fired (q_sub q) = true -> In QFire l)); [discriminate|]. intros l a q1 q2 I _ H. rewrite in_app_iff.
  assert (FK : forall b s', sub_step b (q_sub q1) = Some s' -> b <> AFire -> s_fired s' = true -> s_fired (q_sub q1) = true) by (intros b s' HS NB; step_cases HS; try congruence; auto).
  qcases H; try (intro F; left; apply I; first [exact F|eapply FK; [exact ST|discriminate|exact F]]). intros _. right. left. reflexivity.
Qed.
(** When it is over, exactly one CLOSE has been written, as long as the connection is up. *)
Definition told (s : sub E) : Prop := s_live s = false -> s_fired s = true -> In LCloseMsg (s_log s) \/ exists i p, nth_error (s_procs s) i = Some p /\ p_pc p = PClose.
Definition no_store (s : sub E) : Prop := forall i p, nth_error (s_procs s) i = Some p -> p_pc p <> PStore.
Lemma no_store_kept b (s s' : sub E) : sub_step b s = Some s' -> b <> AClosed -> no_store s -> no_store s'.
Proof.
  intros H N1 NS. assert (U : forall i p c, nth_error (s_procs s) i = Some p -> c <> PStore -> forall j p', nth_error (upd (s_procs s) i (mkP (p_kind p) c)) j = Some p' -> p_pc p' <> PStore).
  { intros i p c HN NC j p' HJ. apply nth_upd in HJ as [[_ ->]|[_ HJ]]; [exact NC|exact (NS _ _ HJ)]. }
  unfold no_store in *. step_cases H; try exact NS; try (intros j p' HJ; eapply U; [eassumption| |exact HJ]; discriminate); try congruence.
  - intros j p' HJ. apply nth_snoc in HJ as [HJ|[_ ->]]; [exact (NS _ _ HJ)|discriminate].
  - intros j p' HJ. eapply U; [eassumption| |exact HJ]. destruct (p_kind p); discriminate.
Qed.
Lemma told_kept b (s s' : sub E) : sub_step b s = Some s' -> (forall i, b <> AProc i false) -> no_store s -> told s -> told s'.
Proof.
  intros H NF NS T. unfold told in *.
  assert (U : forall i p c, nth_error (s_procs s) i = Some p -> p_pc p <> PClose -> s_live s = false -> s_fired s = true -> forall lg : list (obs E), (In LCloseMsg (s_log s) -> In LCloseMsg lg) ->
     In LCloseMsg lg \/ exists j p', nth_error (upd (s_procs s) i (mkP (p_kind p) c)) j = Some p' /\ p_pc p' = PClose).
  { intros i p c HN NP L F lg HL. destruct (T L F) as [X|(j & p' & HJ & PJ)]; [left; auto|]. right. exists j, p'. rewrite nth_upd_other; [auto|]. intros ->. congruence. }
  assert (W : forall x : list proc, s_live s = false -> s_fired s = true -> In LCloseMsg (s_log s) \/ exists j p', nth_error (s_procs s ++ x) j = Some p' /\ p_pc p' = PClose).
  { intros x L F. destruct (T L F) as [X|(j & p' & HJ & PJ)]; [auto|]. right. exists j, p'. rewrite nth_error_app1; [auto|]. apply nth_error_Some. congruence. }
  step_cases H; try discriminate; try exact T; try (apply W);
    try (intros L F; destruct (T L F) as [X|X]; [left; right; exact X|right; exact X]).
  all: try (intros L F; eapply U; [eassumption|congruence|assumption|assumption|cbn [In]; auto]).
  all: try (exfalso; eapply NS; eassumption).
  all: try (intros L F; eapply U; [eassumption|congruence| |assumption|cbn [In]; auto]; assumption).
  - intros L F. destruct (T L eq_refl) as [X|X]; [left; right; exact X|right; exact X].
  - intros _ F. right. exists i. eexists. split; [apply nth_upd_same; apply nth_error_Some; congruence|]. reflexivity.
  - destruct conn; [|exfalso; exact (NF i eq_refl)]. intros _ _. left. left. reflexivity.
Qed.
Theorem C119_close_sent l q r : Forall calm l -> (forall i, ~ In (QProc i false) l) -> exec query_step l query_init = Some q -> s_crashed (q_sub q) = false -> qquiet q ->
  query_sync q = Some (Ok r) -> exists h1 h2, history (q_sub q) = h1 ++ LCloseMsg :: h2 /\ ~ In LCloseMsg h1 /\ ~ In LCloseMsg h2.
Proof.
  intros CA NF H CR Q S. pose proof (sub_reached q (exec_reaches _ _ H)) as R. pose proof (proj2 (reachable_inv _ R) CR) as I.
  assert (CM : In LCloseMsg (history (q_sub q))).
  2:{ apply in_split in CM as (h1 & h2 & Q1). exists h1, h2. split; [exact Q1|]. destruct (C45_close_once _ _ _ R Q1) as (A & B' & _). auto. }
  assert (J : (q_blocked q = 0 /\ no_store (q_sub q)) /\ told (q_sub q) /\ (reading q = true -> s_fired (q_sub q) = true)).
  { assert (FO : Forall (fun a => calm a /\ forall i, a <> QProc i false) l).
    { apply Forall_forall. intros a HI. split; [exact (proj1 (Forall_forall _ _) CA a HI)|intros i ->; exact (NF i HI)]. }
    clear -FO H. revert l q FO H. apply (invariant_on query_step (fun a => calm a /\ forall i, a <> QProc i false) (fun q => (q_blocked q = 0 /\ no_store (q_sub q)) /\ told (q_sub q) /\ (reading q = true -> s_fired (q_sub q) = true))).
    { cbn. repeat split; try discriminate. intros [|[|i]] p HN; cbn in HN; try discriminate. injection HN as <-. discriminate. }
    intros a q1 q2 [CA NB] ((K1 & K0) & K2 & K3) H. assert (FK : forall b s', sub_step b (q_sub q1) = Some s' -> s_fired (q_sub q1) = true -> s_fired s' = true).
    { intros b s' HS F. step_cases HS; first [assumption|reflexivity]. }
    assert (BT : forall b s', sub_step b (q_sub q1) = Some s' -> b <> AClosed -> (forall i, b <> AProc i false) -> no_store s' /\ told s').
    { intros b s' HS N1 N2. split; [eapply no_store_kept; eassumption|eapply told_kept; eassumption]. }
    qcases H; cbn [calm] in CA; try contradiction; try congruence;
      try (destruct (BT _ _ ST) as [X1 X2]; [discriminate|intros i0 Q; try discriminate Q; injection Q as -> ->; exact (NB _ eq_refl)|];
           split; [split; assumption|]; split; [assumption|]; intro RD; eapply FK; [exact ST|apply K3; exact RD]).
    - split; [auto|]. split; [exact K2|]. intros _. apply andb_true_iff in Heqb as [_ X]. exact X.
    - destruct (BT _ _ ST) as [X1 X2]; [discriminate|discriminate|]. split; [auto|]. split; [exact X2|]. intros _. eapply FK; [exact ST|]. apply K3.
      apply andb_true_iff in Heqb as [X _]. unfold reading, is_watching in *. destruct (q_phase q1); try discriminate; reflexivity. }
  destruct J as (_ & T & F). unfold query_sync in S. assert (RD : reading q = true) by (unfold reading; destruct (q_phase q); try discriminate; reflexivity). specialize (F RD).
  assert (CL : s_closed (q_sub q) = true) by (destruct (q_phase q); try discriminate; destruct (s_closed (q_sub q)); congruence).
  assert (SQ : quiet (q_sub q)).
  { intros a IA. destruct a; try contradiction.
    - specialize (Q QSignal Logic.I). unfold query_step in Q. rewrite CR in Q. unfold lift in Q. destruct (sub_step ASignal (q_sub q)); [discriminate|reflexivity].
    - specialize (Q (QTask i c) Logic.I). unfold query_step in Q. rewrite CR, RD in Q. unfold lift in Q. destruct (handed i c (q_sub q)); cbn [negb] in Q; (destruct (sub_step (ATask i c) (q_sub q)); [discriminate|reflexivity]).
    - specialize (Q (QProc i connected) Logic.I). unfold query_step in Q. rewrite CR in Q. unfold lift in Q. destruct (sub_step (AProc i connected) (q_sub q)); [discriminate|reflexivity]. }
  assert (NCF : ~ precedes LCancel LFire (history (q_sub q))).
  { pose proof (fired_in _ _ H F) as FI. apply in_split in FI as (pre & post & ->). apply (fire_first_run pre post); [|exact H]. apply Forall_app in CA. tauto. }
  assert (LV : s_live (q_sub q) = false). { apply C45_dead_after_close_partial; auto. unfold history. rewrite in_rev1. apply (i_chan _ I). exact CL. }
  destruct (T LV F) as [X|(i & p & HN & HP)]; [unfold history; rewrite in_rev1; exact X|].
  destruct (quiet_done _ I CR SQ) as (_ & PD & _). destruct (PD _ _ HN) as [X|[X _]]; congruence.
Qed.
End Props.

(** ** Runs. *)
(** Two stored events, the end of stored events, one more event while the signal is on its way, and the end. *)
Definition query_demo : list (qaction nat) :=
  [QFire; QReady; QLoad 10; QDispatch; QLoad 11; QDispatch; QTask 1 CSend; QEose; QTask 1 CSend; QTask 1 CSend; QTask 1 CSend;
   QTask 0 CSend; QTask 0 CSend; QTask 0 CSend; QSignal; QTask 0 CSend; QLoad 12; QDispatch; QWatch CEose; QProc 1 true; QProc 1 true; QProc 1 true; QProc 1 true;
   QProc 0 true; QProc 0 true; QProc 0 true; QProc 0 true; QProc 0 true; QProc 0 true; QProc 0 true; QTask 2 CSend; QTask 2 CSend; QTask 2 CSend].
Ltac all_quiet := let a := fresh in let H := fresh in intros a H; destruct a as [| | | | | | |?e| | | | | |?i ?c|?i ?b|?w]; try contradiction; try reflexivity;
  match goal with
  | |- query_step (QTask ?i ?c) _ = _ => destruct i as [|[|[|[|i]]]]; destruct c; reflexivity
  | |- query_step (QProc ?i _) _ = _ => destruct i as [|[|[|[|[|i]]]]]; reflexivity
  | |- query_step (QWatch ?w) _ = _ => destruct w; reflexivity
  end.
Example C119_demo : exists q, exec query_step query_demo query_init = Some q /\ Forall calm query_demo /\ (forall i, ~ In (QProc i false) query_demo) /\
  s_crashed (q_sub q) = false /\ qquiet q /\ query_sync q = Some (Ok [11; 10]) /\ In QReady query_demo /\ happened query_demo q /\
  history (q_sub q) = [LFire; LRecv 0 10; LRecv 1 11; LEoseMsg; LDeliver 1 11; LDeliver 0 10; LSignal; LRecv 2 12; LCancel; LOff; LCloseMsg; LCancel; LChanClose; LDrop 2 12].
Proof.
  eexists. split; [vm_compute; reflexivity|]. split; [repeat constructor|]. split; [cbn; intuition discriminate|]. split; [reflexivity|]. split; [all_quiet|].
  split; [reflexivity|]. split; [cbn; auto|]. split; [right; right; right; cbn; auto 10|]. reflexivity.
Qed.
Example C119_demo_stored : precedes LFire (LRecv 0 10) [LFire; LRecv 0 10; LRecv 1 11; LEoseMsg] /\ precedes (LRecv 0 10) LEoseMsg [LFire; LRecv 0 10; LRecv 1 11; @LEoseMsg nat].
Proof. split; [exists [LFire]; eexists|exists [LFire; LRecv 0 10; LRecv 1 11]; eexists]; (split; [reflexivity|cbn; auto]). Qed.
(** Full statement: whenever QuerySync returns without an error, what the relay sent before that is in the result. False: when
    the relay closes the subscription instead of sending EOSE, an event that came first can be lost, and the caller is told nothing. *)
Theorem C119_closed_loses_refuted : exists l (q : query nat), exec query_step l query_init = Some q /\ ~ In QCtx l /\ ~ In QRelay l /\ qquiet q /\
  precedes LFire (LRecv 0 10) (history (q_sub q)) /\ query_sync q = Some (Ok []) /\ ~ In LEoseMsg (history (q_sub q)).
Proof.
  exists [QFire; QReady; QLoad 10; QDispatch; QClosedMsg; QClosedPut; QProc 1 true; QTask 0 CSend; QTask 0 CSend; QTask 0 CSend; QWatch CClosed; QProc 1 true; QProc 1 true; QProc 1 true;
    QProc 2 true; QProc 2 true; QProc 2 true; QProc 0 true; QProc 0 true; QProc 0 true; QProc 0 true; QProc 0 true; QProc 0 true; QProc 0 true].
  eexists. split; [vm_compute; reflexivity|]. split; [cbn; intuition discriminate|]. split; [cbn; intuition discriminate|]. split; [all_quiet|].
  split; [exists [LFire]; eexists; split; [reflexivity|left; reflexivity]|]. split; [reflexivity|]. cbn. intuition discriminate.
Qed.
(** A relay that refuses looks like a relay that has nothing. *)
Theorem C119_refusal_silent_refuted : exists l l' (q q' : query nat), exec query_step l query_init = Some q /\ exec query_step l' query_init = Some q' /\
  In QClosedMsg l /\ ~ In QEose l /\ ~ In QClosedMsg l' /\ In QEose l' /\ query_sync q = Some (Ok []) /\ query_sync q' = query_sync q.
Proof.
  exists [QFire; QReady; QClosedMsg; QClosedPut; QProc 1 true; QProc 1 true; QProc 0 true; QProc 0 true; QProc 0 true; QProc 0 true; QProc 0 true; QProc 0 true].
  exists [QFire; QReady; QEose; QSignal; QWatch CEose; QProc 1 true; QProc 0 true; QProc 0 true; QProc 0 true; QProc 0 true; QProc 0 true; QProc 0 true; QProc 0 true].
  eexists. eexists. split; [vm_compute; reflexivity|]. split; [vm_compute; reflexivity|]. cbn. repeat split; auto; intuition discriminate.
Qed.
(** A relay that sends more CLOSED than there is room for leaves goroutines behind that never go on: nothing more can happen in
    the program, and nobody will find the subscription again. *)
Theorem C119_goroutines_left_refuted : exists l (q : query nat), exec query_step l query_init = Some q /\ qquiet q /\ query_sync q = Some (Ok []) /\ q_blocked q = 1 /\
  forall a q', query_step a q = Some q' -> q_blocked q' = 1.
Proof.
  exists [QFire; QReady; QClosedMsg; QClosedMsg; QClosedMsg; QClosedPut; QWatch CClosed; QClosedPut; QProc 1 true; QProc 1 true; QProc 1 true; QProc 1 true; QProc 2 true; QProc 2 true; QProc 2 true;
    QProc 3 true; QProc 3 true; QProc 3 true; QProc 3 true; QProc 0 true; QProc 0 true; QProc 0 true; QProc 0 true; QProc 0 true; QProc 0 true; QProc 0 true].
  eexists. split; [vm_compute; reflexivity|]. split; [all_quiet|]. split; [reflexivity|]. split; [reflexivity|].
  intros a q' H. destruct a as [| | | | | | |e| | | | | |i c|i b|w]; try (cbn in H; discriminate H); try (cbn in H; injection H as <-; reflexivity).
  - destruct i; cbn in H; discriminate.
  - destruct i as [|[|[|[|[|i]]]]]; cbn in H; discriminate.
Qed.
(** A relay that is not connected: the error comes back at once, but the subscription stays in the relay's table, with its
    goroutine, for as long as the context given lasts. *)
Theorem C119_unconnected_left_refuted : exists l (q : query nat), exec query_step l query_init = Some q /\ qquiet q /\ query_sync q = Some Err /\ s_deleted (q_sub q) = false /\ s_procs (q_sub q) = [mkP KStart PWait].
Proof. exists [QNotConnected]. eexists. split; [vm_compute; reflexivity|]. split; [all_quiet|repeat split]. Qed.
(** Ended before the request is written, it can crash. *)
Theorem C119_no_crash_refuted : exists l (q : query nat), exec query_step l query_init = Some q /\ In QFire l /\ s_crashed (q_sub q) = true.
Proof.
  exists [QCtx; QProc 0 true; QProc 0 true; QProc 0 true; QFire; QReady; QLoad 7; QProc 0 true; QProc 0 true; QProc 0 true; QProc 0 true; QDispatch; QTask 0 CSend; QTask 0 CSend].
  eexists. split; [vm_compute; reflexivity|]. split; [cbn; auto 10|reflexivity].
Qed.
(** The list starts with room for what the filter's limit says, however large, and for 250 at least. *)
Theorem C119_room limit : (250 <= query_room limit)%Z /\ (limit <= query_room limit)%Z /\ (query_room limit = 250 \/ query_room limit = limit)%Z.
Proof. unfold query_room. lia. Qed.

Print Assumptions C119_result.
Print Assumptions C119_complete.
Print Assumptions C119_each_once.
Print Assumptions C119_terminates.
Print Assumptions C119_ends.
Print Assumptions C119_no_crash_partial.
Print Assumptions C119_close_sent.
Print Assumptions C119_closed_loses_refuted.
Print Assumptions C119_refusal_silent_refuted.
Print Assumptions C119_goroutines_left_refuted.
Print Assumptions C119_unconnected_left_refuted.
Print Assumptions C119_no_crash_refuted.
Print Assumptions C119_room.
