(** Invariants of the subscription machine. *)
From Verif Require Import Base Machine SubModel.
Import ListNotations.

Section SubProofs.
Context {E : Type}.
Notation sub := (sub E).
Notation obs := (obs E).
Notation task := (task E).
Implicit Types (s : sub) (l : list obs).

(** [o] then, later, [o']; histories newest first. *)
Definition earlier (o o' : obs) l : Prop := exists l2 l1, l = l2 ++ o' :: l1 /\ In o l1.
Lemma earlier_cons o o' x l : earlier o o' l -> earlier o o' (x :: l).
Proof. intros (l2 & l1 & -> & H). exists (x :: l2), l1. auto. Qed.
Lemma earlier_new o o' l : In o l -> earlier o o' (o' :: l).
Proof. intro H. exists [], l. auto. Qed.
Lemma earlier_in o o' l : earlier o o' l -> In o l /\ In o' l.
Proof. intros (l2 & l1 & -> & H). split; apply in_or_app; right; cbn; auto. Qed.
Lemma earlier_inv o o' x l : earlier o o' (x :: l) -> (x = o' /\ In o l) \/ earlier o o' l.
Proof.
  intros (l2 & l1 & H & I). destruct l2 as [|y l2]; cbn [app] in H; injection H as -> ->; [auto|].
  right. exists l2, l1. auto.
Qed.

(** What each entry needs of the entries before it. *)
Definition ok_obs (o : obs) l : Prop :=
  match o with
  | LSignal => ~ In LSignal l /\ In LEoseMsg l /\
      (forall i e, earlier (LRecv i e) LEoseMsg l -> In (LDeliver i e) l \/ In (LDrop i e) l)
  | LEoseMsg => ~ In LEoseMsg l
  | LRecv i e => forall e', ~ In (LRecv i e') l
  | LDeliver i e => In (LRecv i e) l /\ (forall e', ~ In (LDeliver i e') l) /\ (forall e', ~ In (LDrop i e') l) /\ ~ In LChanClose l /\
      In LFire l /\ (In LSignal l -> earlier LEoseMsg (LRecv i e) l)
  | LDrop i e => In (LRecv i e) l /\ (forall e', ~ In (LDeliver i e') l) /\ (forall e', ~ In (LDrop i e') l) /\
      (In LCancel l \/ In LOff l \/ ~ In LFire l)
  | LCloseMsg => ~ In LCloseMsg l /\ In LFire l /\ In LCancel l
  | LChanClose => ~ In LChanClose l /\ In LCancel l
  | LFire => ~ In LFire l
  | LOff => True
  | LCancel => True
  end.

Definition holds_lock (ph : tphase) : bool := match ph with TSend | TCount | TRelease => true | _ => false end.
Definition p_holds (c : pc) : bool := match c with PCloseCh | PUnlock => true | _ => false end.
Definition waits (t : task) : bool := t_added t && match t_ph t with TWait | TSend | TCount => true | _ => false end.
(** start() only, after the channel lock *)
Definition p_start (c : pc) : bool := match c with PWait | PLock | PCloseCh | PUnlock => true | _ => false end.
Definition is_start (p : proc) : bool := match p_kind p with KStart => true | _ => false end.
Definition closing (p : proc) : bool := match p_pc p with PClose => true | _ => false end.

Record Inv (s : sub) : Prop := mkInv {
  i_order : in_order ok_obs (s_log s);
  i_recv : forall i e, In (LRecv i e) (s_log s) <-> exists t, nth_error (s_tasks s) i = Some t /\ t_ev t = e;
  i_out : forall i t, nth_error (s_tasks s) i = Some t ->
     match t_ph t with
     | TWait | TSend => (forall e, ~ In (LDeliver i e) (s_log s)) /\ (forall e, ~ In (LDrop i e) (s_log s))
     | _ => In (LDeliver i (t_ev t)) (s_log s) \/ In (LDrop i (t_ev t)) (s_log s)
     end;
  i_fresh : forall i e, In (LDeliver i e) (s_log s) \/ In (LDrop i e) (s_log s) -> i < length (s_tasks s);
  i_wg : s_wg s = cnt waits (s_tasks s);
  i_eosed : s_eosed s = true <-> In LEoseMsg (s_log s);
  i_waiter : match s_waiter s with WNone => s_eosed s = false | _ => s_eosed s = true end;
  i_signal : s_waiter s = WDone <-> In LSignal (s_log s);
  i_signal2 : s_waiter s = WDone -> s_wg s = 0;
  i_added : forall i t, nth_error (s_tasks s) i = Some t -> if t_added t then ~ earlier LEoseMsg (LRecv i (t_ev t)) (s_log s) else earlier LEoseMsg (LRecv i (t_ev t)) (s_log s);
  i_lockt : forall i, s_lock s = Some (HTask i) <-> exists t, nth_error (s_tasks s) i = Some t /\ holds_lock (t_ph t) = true;
  i_lockp : forall i, s_lock s = Some (HProc i) <-> exists p, nth_error (s_procs s) i = Some p /\ p_holds (p_pc p) = true;
  i_start : forall i p, nth_error (s_procs s) i = Some p -> (is_start p = true <-> i = 0);
  i_start0 : 0 < length (s_procs s);
  i_pstart : forall i p, nth_error (s_procs s) i = Some p -> p_start (p_pc p) = true -> is_start p = true;
  i_chan : s_closed s = true <-> In LChanClose (s_log s);
  i_chan2 : s_closed s = true <-> exists p, nth_error (s_procs s) 0 = Some p /\ (p_pc p = PUnlock \/ p_pc p = PEnd);
  i_cancel : s_cancelled s = true <-> In LCancel (s_log s);
  i_pcancel : forall i p, nth_error (s_procs s) i = Some p -> match p_pc p with PWait | PStore | PCancel => True | _ => s_cancelled s = true end;
  i_fired : s_fired s = true <-> In LFire (s_log s);
  i_live : s_live s = true -> s_fired s = true;
  i_dead : s_live s = false -> s_fired s = true -> In LOff (s_log s);
  i_closemsg : cnt closing (s_procs s) + (if s_live s then 1 else 0) + (if s_fired s then 0 else 1) <= 1 /\
     (In LCloseMsg (s_log s) -> cnt closing (s_procs s) = 0 /\ s_live s = false /\ s_fired s = true);
  i_send : forall i t, nth_error (s_tasks s) i = Some t -> t_ph t = TSend -> s_fired s = true
}.

Ltac sproj := cbn [s_live s_eosed s_cancelled s_deleted s_fired s_lock s_wg s_waiter s_closed s_crashed s_reader s_tasks s_procs s_log
  with_proc set_task set_proc log t_ev t_added t_ph p_kind p_pc] in *; unfold log in *.

(** All ways a step can be taken, with the new state spelled out. *)
Ltac step_cases H :=
  unfold sub_step in H;
  match type of H with context [if s_crashed ?s then _ else _] => destruct (s_crashed s) eqn:?HC; [discriminate H|] end;
  match type of H with context [match ?a with AFire => _ | _ => _ end] => destruct a as [| | |?e| | | |?i ?c| | |?i ?conn] end;
  repeat match type of H with
  | (if ?b then _ else _) = _ => destruct b eqn:?
  | match ?o with Some _ => _ | None => _ end = _ => destruct o eqn:?
  | match ?w with WNone => _ | _ => _ end = _ => destruct w eqn:?
  | match ?n with O => _ | S _ => _ end = _ => destruct n eqn:?
  | task_step _ ?t _ _ = _ => unfold task_step in H; destruct (t_ph t) eqn:?
  | match ?c with CSend => _ | CDone => _ end = _ => destruct c
  | proc_step _ ?p _ _ = _ => unfold proc_step in H; destruct (p_pc p) eqn:?; cbv zeta in H
  | None = Some _ => discriminate H
  end; try discriminate H; injection H as <-; sproj.

Ltac logs := cbn [In] in *; unfold log in *; cbn [In] in *.


Ltac crunch := try (match goal with conn : bool |- _ => destruct conn end; logs); intuition (try discriminate; try congruence; auto).

Lemma step_cancel a s s' : Inv s -> sub_step a s = Some s' -> s_cancelled s' = true <-> In LCancel (s_log s').
Proof. intros I H. pose proof (i_cancel s I) as IC. step_cases H; logs; try exact IC; crunch. Qed.
Lemma step_fired a s s' : Inv s -> sub_step a s = Some s' -> s_fired s' = true <-> In LFire (s_log s').
Proof. intros I H. pose proof (i_fired s I) as IC. step_cases H; logs; try exact IC; crunch. Qed.
Lemma step_eosed a s s' : Inv s -> sub_step a s = Some s' -> s_eosed s' = true <-> In LEoseMsg (s_log s').
Proof. intros I H. pose proof (i_eosed s I) as IC. step_cases H; logs; try exact IC; crunch. Qed.
Lemma step_signal a s s' : Inv s -> sub_step a s = Some s' -> s_waiter s' = WDone <-> In LSignal (s_log s').
Proof. intros I H. pose proof (i_signal s I) as IC. pose proof (i_waiter s I) as IW. step_cases H; logs; try exact IC; try (destruct (s_waiter s); congruence); crunch.
  destruct (s_waiter s); try congruence. 
  all: intuition (try discriminate; try congruence). Qed.
Lemma step_waiter a s s' : Inv s -> sub_step a s = Some s' -> match s_waiter s' with WNone => s_eosed s' = false | _ => s_eosed s' = true end.
Proof. intros I H. pose proof (i_waiter s I) as IC. step_cases H; logs; try exact IC; try (match goal with HW : s_waiter s = _ |- _ => rewrite HW in IC; exact IC end); crunch. rewrite Heqb. exact IC. Qed.
Lemma step_chan a s s' : Inv s -> sub_step a s = Some s' -> s_closed s' = true <-> In LChanClose (s_log s').
Proof. intros I H. pose proof (i_chan s I) as IC. step_cases H; logs; try exact IC; crunch. Qed.
Lemma step_live a s s' : Inv s -> sub_step a s = Some s' -> s_live s' = true -> s_fired s' = true.
Proof. intros I H. pose proof (i_live s I) as IC. step_cases H; logs; try exact IC; crunch. Qed.
Lemma step_dead a s s' : Inv s -> sub_step a s = Some s' -> s_live s' = false -> s_fired s' = true -> In LOff (s_log s').
Proof. intros I H. pose proof (i_dead s I) as IC. step_cases H; logs; try exact IC; crunch. Qed.

Lemma step_start0 a s s' : Inv s -> sub_step a s = Some s' -> 0 < length (s_procs s').
Proof. intros I H. pose proof (i_start0 s I) as IC. step_cases H; unfold set_proc; rewrite ?upd_length, ?app_length; cbn [length]; lia || exact IC. Qed.
Lemma step_start a s s' : Inv s -> sub_step a s = Some s' -> forall i p, nth_error (s_procs s') i = Some p -> (is_start p = true <-> i = 0).
Proof.
  intros I H. pose proof (i_start s I) as IC. pose proof (i_start0 s I) as I0. step_cases H; try exact IC; intros j q HN; unfold set_proc in HN.
  1-2: apply nth_snoc in HN as [HN|[-> ->]]; [apply (IC _ _ HN)|cbn; split; [discriminate|lia]].
   all: apply nth_upd in HN as [[<- ->]|[NE HN]]; [|apply (IC _ _ HN)]; 
    match goal with HP : nth_error (s_procs _) _ = Some _ |- _ => apply (IC _ _ HP) end.
Qed.
Lemma step_pstart a s s' : Inv s -> sub_step a s = Some s' -> forall i p, nth_error (s_procs s') i = Some p -> p_start (p_pc p) = true -> is_start p = true.
Proof.
  intros I H. pose proof (i_pstart s I) as IC. step_cases H; try exact IC; intros j q HN; unfold set_proc in HN.
  1-2: apply nth_snoc in HN as [HN|[-> ->]]; [apply (IC _ _ HN)|cbn; discriminate].
  all: apply nth_upd in HN as [[<- ->]|[NE HN]]; [|apply (IC _ _ HN)]; 
    match goal with HP : nth_error (s_procs _) _ = Some ?p, HQ : p_pc ?p = _ |- _ => pose proof (IC _ _ HP) as IP; rewrite HQ in IP; unfold is_start in *; destruct p as [[] pp]; cbn in *; auto; intros; try discriminate end.
Qed.
Lemma step_pcancel a s s' : Inv s -> sub_step a s = Some s' -> forall i p, nth_error (s_procs s') i = Some p ->
  match p_pc p with PWait | PStore | PCancel => True | _ => s_cancelled s' = true end.
Proof.
  intros I H. pose proof (i_pcancel s I) as IC. step_cases H; try exact IC; intros j q HN; unfold set_proc in HN.
  1-2: pose proof (IC _ _ HN) as IP; destruct (p_pc q); auto.
  1-2: apply nth_snoc in HN as [HN|[-> ->]]; [apply (IC _ _ HN)|exact Logic.I].
  all: apply nth_upd in HN as [[<- ->]|[NE HN]]; [|try (apply (IC _ _ HN)); try (pose proof (IC _ _ HN) as IP; destruct (p_pc q); auto)]; 
    try (match goal with HP : nth_error (s_procs _) _ = Some ?p, HQ : p_pc ?p = _ |- _ => pose proof (IC _ _ HP) as IP; rewrite HQ in IP; cbn; auto end).
  destruct (p_kind p); assumption.
Qed.

(** Array updates seen as an equivalence. *)
Lemma nth_upd_iff {X} (l : list X) i x y j z : nth_error l i = Some y ->
  (nth_error (upd l i x) j = Some z <-> (i = j /\ z = x) \/ (i <> j /\ nth_error l j = Some z)).
Proof.
  intro H. split; [apply nth_upd|]. intros [[<- ->]|[NE HN]].
  - apply nth_upd_same. eapply nth_lt; exact H.
  - rewrite nth_upd_other by exact NE. exact HN.
Qed.
Lemma nth_snoc_iff {X} (l : list X) x j y : nth_error (l ++ [x]) j = Some y <-> nth_error l j = Some y \/ (j = length l /\ y = x).
Proof. split; [apply nth_snoc|]. intros [H|[-> ->]]; [apply nth_snoc_old, H|apply nth_snoc_new]. Qed.

Lemma step_lockt a s s' : Inv s -> sub_step a s = Some s' ->
  forall i, s_lock s' = Some (HTask i) <-> exists t, nth_error (s_tasks s') i = Some t /\ holds_lock (t_ph t) = true.
Proof.
  intros I H. step_cases H; pose proof (i_lockt s I) as IC; pose proof (i_lockp s I) as IP; try exact IC; intro j; unfold set_task.
  - (* dispatch *) rewrite (IC j). split; intros (t & HN & HL).
    + exists t. rewrite nth_snoc_iff. auto.
    + apply nth_snoc in HN as [HN|[-> ->]]; [eauto|discriminate].
  - (* lock, live *) split.
    + intro Q. injection Q as <-. eexists. rewrite (nth_upd_iff _ _ _ _ _ _ Heqo). split; [left; split; reflexivity|reflexivity].
    + intros (t' & HN & HL). apply nth_upd in HN as [[<- ->]|[NE HN]]; [reflexivity|].
      assert (s_lock s = Some (HTask j)) by (apply IC; eauto). congruence.
  - (* lock, not live *) split.
    + intro Q. injection Q as <-. eexists. rewrite (nth_upd_iff _ _ _ _ _ _ Heqo). split; [left; split; reflexivity|reflexivity].
    + intros (t' & HN & HL). apply nth_upd in HN as [[<- ->]|[NE HN]]; [reflexivity|].
      assert (s_lock s = Some (HTask j)) by (apply IC; eauto). congruence.
  - rewrite (IC j). split; intros (t' & HN & HL).
    + destruct (Nat.eq_dec i j) as [<-|NE]; [eexists; rewrite (nth_upd_iff _ _ _ _ _ _ Heqo); split; [left; split; reflexivity|reflexivity]|].
      exists t'. rewrite (nth_upd_iff _ _ _ _ _ _ Heqo). auto.
    + apply nth_upd in HN as [[<- ->]|[NE HN]]; [|eauto]. exists t. rewrite Heqt0. auto.
  - rewrite (IC j). split; intros (t' & HN & HL).
    + destruct (Nat.eq_dec i j) as [<-|NE]; [eexists; rewrite (nth_upd_iff _ _ _ _ _ _ Heqo); split; [left; split; reflexivity|reflexivity]|].
      exists t'. rewrite (nth_upd_iff _ _ _ _ _ _ Heqo). auto.
    + apply nth_upd in HN as [[<- ->]|[NE HN]]; [|eauto]. exists t. rewrite Heqt0. auto.
  - rewrite (IC j). split; intros (t' & HN & HL).
    + destruct (Nat.eq_dec i j) as [<-|NE]; [eexists; rewrite (nth_upd_iff _ _ _ _ _ _ Heqo); split; [left; split; reflexivity|reflexivity]|].
      exists t'. rewrite (nth_upd_iff _ _ _ _ _ _ Heqo). auto.
    + apply nth_upd in HN as [[<- ->]|[NE HN]]; [|eauto]. exists t. rewrite Heqt0. auto.
  - rewrite (IC j). split; intros (t' & HN & HL).
    + destruct (Nat.eq_dec i j) as [<-|NE]; [eexists; rewrite (nth_upd_iff _ _ _ _ _ _ Heqo); split; [left; split; reflexivity|reflexivity]|].
      exists t'. rewrite (nth_upd_iff _ _ _ _ _ _ Heqo). auto.
    + apply nth_upd in HN as [[<- ->]|[NE HN]]; [|eauto]. exists t. rewrite Heqt0. auto.
  - (* unlock *) split; [discriminate|]. intros (t' & HN & HL). apply nth_upd in HN as [[<- ->]|[NE HN]]; [discriminate|].
    assert (s_lock s = Some (HTask j)) by (apply IC; eauto).
    assert (s_lock s = Some (HTask i)) by (apply IC; exists t; rewrite Heqt0; auto). congruence.
  - (* start locks *) split; [discriminate|]. intro Q. apply IC in Q. congruence.
  - split; [discriminate|]. intro Q. apply IC in Q. assert (s_lock s = Some (HProc i)) by (apply IP; exists p; rewrite Heqp0; auto). congruence.
Qed.

Lemma step_lockp a s s' : Inv s -> sub_step a s = Some s' ->
  forall i, s_lock s' = Some (HProc i) <-> exists p, nth_error (s_procs s') i = Some p /\ p_holds (p_pc p) = true.
Proof.
  intros I H. pose proof (i_lockt s I) as IC. pose proof (i_lockp s I) as IP.
  assert (KEEP : forall i p c, nth_error (s_procs s) i = Some p -> p_holds (p_pc p) = p_holds c ->
    forall j, s_lock s = Some (HProc j) <-> exists q, nth_error (upd (s_procs s) i (mkP (p_kind p) c)) j = Some q /\ p_holds (p_pc q) = true).
  { intros i p c HI HH j. rewrite (IP j). split; intros (q & HN & HL).
    - destruct (Nat.eq_dec i j) as [<-|NE].
      + eexists. rewrite (nth_upd_iff _ _ _ _ _ _ HI). split; [left; split; reflexivity|]. cbn. rewrite <- HH. congruence.
      + exists q. rewrite (nth_upd_iff _ _ _ _ _ _ HI). auto.
    - apply nth_upd in HN as [[<- ->]|[NE HN]]; [|eauto]. exists p. split; [exact HI|]. cbn in HL. congruence. }
  assert (SNOC : forall x, p_holds (p_pc x) = false ->
    forall j, s_lock s = Some (HProc j) <-> exists q, nth_error (s_procs s ++ [x]) j = Some q /\ p_holds (p_pc q) = true).
  { intros x HX j. rewrite (IP j). split; intros (q & HN & HL).
    - exists q. rewrite nth_snoc_iff. auto.
    - apply nth_snoc in HN as [HN|[-> ->]]; [eauto|congruence]. }
  generalize dependent IP. generalize dependent IC. generalize dependent KEEP. generalize dependent SNOC.
  step_cases H; intros SNOC KEEP IC IP; try exact IP; unfold set_proc; try (apply SNOC; reflexivity);
    try (match goal with HP : nth_error (s_procs _) _ = Some ?p, HQ : p_pc ?p = _ |- _ => apply KEEP; [exact HP|rewrite HQ; reflexivity] end).
  - intro j. split; [discriminate|]. intro Q. apply IP in Q. congruence.
  - intro j. split; [discriminate|]. intro Q. apply IP in Q. congruence.
  - intro j. split; [discriminate|]. intro Q. apply IP in Q. assert (s_lock s = Some (HTask i)) by (apply IC; exists t; rewrite Heqt0; auto). congruence.
  - apply KEEP; [exact Heqo|rewrite Heqp0; destruct (p_kind p); reflexivity].
  - intro j. split.
    + intro Q. injection Q as <-. eexists. rewrite (nth_upd_iff _ _ _ _ _ _ Heqo). split; [left; split; reflexivity|reflexivity].
    + intros (q & HN & HL). apply nth_upd in HN as [[<- ->]|[NE HN]]; [reflexivity|].
      discriminate (proj2 (IP j) (ex_intro _ q (conj HN HL))).
  - intro j. split; [discriminate|]. intros (q & HN & HL). apply nth_upd in HN as [[<- ->]|[NE HN]]; [discriminate|].
    assert (s_lock s = Some (HProc j)) by (apply IP; eauto).
    assert (s_lock s = Some (HProc i)) by (apply IP; exists p; rewrite Heqp0; auto). congruence.
Qed.

Lemma step_chan2 a s s' : Inv s -> sub_step a s = Some s' ->
  s_closed s' = true <-> exists p, nth_error (s_procs s') 0 = Some p /\ (p_pc p = PUnlock \/ p_pc p = PEnd).
Proof.
  intros I H. pose proof (i_chan2 s I) as IC. pose proof (i_start s I) as IS. pose proof (i_pstart s I) as IQ. pose proof (i_start0 s I) as I0.
  assert (SNOC : forall x, s_closed s = true <-> exists p, nth_error (s_procs s ++ [x]) 0 = Some p /\ (p_pc p = PUnlock \/ p_pc p = PEnd)).
  { intro x. rewrite IC. rewrite nth_error_app1 by exact I0. reflexivity. }
  assert (KEEP : forall i p c, nth_error (s_procs s) i = Some p -> ~ (p_pc p = PUnlock \/ p_pc p = PEnd) -> (is_start p = true -> ~ (c = PUnlock \/ c = PEnd)) ->
    s_closed s = true <-> exists q, nth_error (upd (s_procs s) i (mkP (p_kind p) c)) 0 = Some q /\ (p_pc q = PUnlock \/ p_pc q = PEnd)).
  { intros i p c HI N1 N2. rewrite IC. split; intros (q & HN & HL).
    - exists q. split; [|exact HL]. apply (nth_upd_iff _ _ _ _ _ _ HI). right. split; [|exact HN]. intro. subst i. apply N1. congruence.
    - apply nth_upd in HN as [[-> ->]|[NE HN]]; [|eauto]. exfalso. apply N2; [|exact HL]. apply (IS _ _ HI). reflexivity. }
  step_cases H; try exact IC; unfold set_proc; try (apply SNOC);
    try (match goal with HP : nth_error (s_procs _) _ = Some ?p, HQ : p_pc ?p = _ |- _ => 
       apply KEEP; [exact HP|rewrite HQ; intros [?|?]; discriminate|intros _ [?|?]; discriminate] end).
  - apply KEEP; [exact Heqo|rewrite Heqp0; intros [?|?]; discriminate|]. unfold is_start. destruct (p_kind p); try discriminate. intros _ [?|?]; discriminate.
  - split; [intros _|reflexivity]. assert (i = 0). { apply (IS _ _ Heqo). apply (IQ _ _ Heqo). rewrite Heqp0. reflexivity. } subst i.
    eexists. rewrite (nth_upd_iff _ _ _ _ _ _ Heqo). split; [left; split; reflexivity|cbn; auto].
  - assert (i = 0). { apply (IS _ _ Heqo). apply (IQ _ _ Heqo). rewrite Heqp0. reflexivity. } subst i.
    rewrite IC. split; intros (q & HN & HL).
    + eexists. rewrite (nth_upd_iff _ _ _ _ _ _ Heqo). split; [left; split; reflexivity|cbn; auto].
    + exists p. auto.
Qed.

Lemma step_closemsg a s s' : Inv s -> sub_step a s = Some s' ->
  cnt closing (s_procs s') + (if s_live s' then 1 else 0) + (if s_fired s' then 0 else 1) <= 1 /\
     (In LCloseMsg (s_log s') -> cnt closing (s_procs s') = 0 /\ s_live s' = false /\ s_fired s' = true).
Proof.
  intros I H. pose proof (i_closemsg s I) as [IC ID]. pose proof (i_live s I) as IL.
  assert (U : forall i p c, nth_error (s_procs s) i = Some p -> cnt closing (upd (s_procs s) i (mkP (p_kind p) c)) + (if closing p then 1 else 0) = cnt closing (s_procs s) + (if closing (mkP (p_kind p) c) then 1 else 0)).
  { intros i p c. apply cnt_upd. }
  step_cases H; try (split; assumption); logs; unfold set_proc;
    try (match goal with HP : nth_error (s_procs _) _ = Some ?p, HQ : p_pc ?p = _ |- context [upd (s_procs _) _ (mkP (p_kind ?p) ?c)] =>
      pose proof (U _ _ c HP) as UU; unfold closing in UU at 2 4; rewrite HQ in UU; cbn [p_pc p_kind] in UU end);
    rewrite ?cnt_app; cbn [cnt closing p_pc]; clear U;
    try (destruct (s_live s) eqn:?); try (destruct (s_fired s) eqn:?); try (match goal with conn : bool |- _ => destruct conn end; logs);
    try (match goal with |- context [match p_kind ?p with KStart => _ | _ => _ end] => destruct (p_kind p) end);
    try (specialize (IL eq_refl)); try discriminate;
    (split; [lia|intro Q; repeat match goal with
       | Q : _ \/ _ |- _ => destruct Q as [Q|Q]; [try discriminate Q|]
       | Q : In LCloseMsg _ |- _ => specialize (ID Q); destruct ID as (D1 & D2 & D3); clear Q end; try discriminate;
       repeat split; try reflexivity; try lia; try congruence]).
Qed.

Lemma step_send a s s' : Inv s -> sub_step a s = Some s' ->
  forall i t, nth_error (s_tasks s') i = Some t -> t_ph t = TSend -> s_fired s' = true.
Proof.
  intros I H. pose proof (i_live s I) as IL. pose proof (i_send s I) as IC. step_cases H; try exact IC; intros j q HN HP; unfold set_task in HN; try reflexivity; try congruence.
  all: try (apply nth_snoc in HN as [HN|[-> ->]]; [eauto|discriminate]).
  all: try (apply nth_upd in HN as [[<- ->]|[NE HN]]; [try discriminate|eauto]); auto.
Qed.

Lemma step_fresh a s s' : Inv s -> sub_step a s = Some s' ->
  forall i e, In (LDeliver i e) (s_log s') \/ In (LDrop i e) (s_log s') -> i < length (s_tasks s').
Proof.
  intros I H. pose proof (i_fresh s I) as IC. step_cases H; try exact IC; intros j q HN; unfold set_task; rewrite ?upd_length, ?app_length; cbn [length];
   try (match goal with conn : bool |- _ => destruct conn end); logs;
   try (match goal with HT : nth_error (s_tasks _) _ = Some _ |- _ => pose proof (nth_lt _ _ _ HT) end);
   assert (HX : forall k, k < length (s_tasks s) -> k < length (s_tasks s) + 1) by (intros; lia).
  all: destruct HN as [HN|HN]; try (destruct HN as [HN|HN]; [first [discriminate HN|injection HN as <- <-; auto]|]); eauto.
Qed.

Lemma step_recv a s s' : Inv s -> sub_step a s = Some s' ->
  forall i e, In (LRecv i e) (s_log s') <-> exists t, nth_error (s_tasks s') i = Some t /\ t_ev t = e.
Proof.
  intros I H. pose proof (i_recv s I) as IC. 
  assert (KEEP : forall i t ph, nth_error (s_tasks s) i = Some t ->
    forall j e, In (LRecv j e) (s_log s) <-> exists t', nth_error (upd (s_tasks s) i (mkT (t_ev t) (t_added t) ph)) j = Some t' /\ t_ev t' = e).
  { intros i t ph HI j e. rewrite (IC j e). split; intros (t' & HN & HE).
    - destruct (Nat.eq_dec i j) as [<-|NE]; [|exists t'; rewrite (nth_upd_iff _ _ _ _ _ _ HI); auto].
      eexists. rewrite (nth_upd_iff _ _ _ _ _ _ HI). split; [left; split; reflexivity|]. cbn. congruence.
    - apply nth_upd in HN as [[<- ->]|[NE HN]]; [|eauto]. exists t. auto. }
  assert (ADD : forall o, (forall j e, o <> LRecv j e) -> forall j e, In (LRecv j e) (o :: s_log s) <-> In (LRecv j e) (s_log s)).
  { intros o HO j e. cbn. split; [|auto]. intros [Q|Q]; [|exact Q]. destruct (HO j e Q). }
  step_cases H; try exact IC; unfold set_task; try (match goal with conn : bool |- _ => destruct conn end); try exact IC;
   intros j e'; try (rewrite ADD by (intros; discriminate)); try (apply IC); try (apply KEEP; assumption).
  - logs. split.
    + intros [Q|Q]; [injection Q as <- <-; eexists; split; [apply nth_snoc_new|reflexivity]|].
      apply IC in Q as (t & HN & HE). exists t. split; [apply nth_snoc_old, HN|exact HE].
    + intros (t & HN & HE). apply nth_snoc in HN as [HN|[-> ->]]; [right; apply IC; eauto|]. cbn in HE. left. congruence.
Qed.

Lemma step_wg a s s' : Inv s -> sub_step a s = Some s' -> s_wg s' = cnt waits (s_tasks s').
Proof.
  intros I H. pose proof (i_wg s I) as IC.
  assert (U : forall i t ph, nth_error (s_tasks s) i = Some t -> cnt waits (upd (s_tasks s) i (mkT (t_ev t) (t_added t) ph)) + (if waits t then 1 else 0) = cnt waits (s_tasks s) + (if waits (mkT (t_ev t) (t_added t) ph) then 1 else 0)).
  { intros i p c. apply cnt_upd. }
  step_cases H; try exact IC; unfold set_task; rewrite ?cnt_app; cbn [cnt];
    try (match goal with HP : nth_error (s_tasks _) _ = Some ?p, HQ : t_ph ?p = _ |- context [upd (s_tasks _) _ (mkT _ _ ?c)] =>
      pose proof (U _ _ c HP) as UU; unfold waits in UU at 2 4; rewrite HQ in UU; cbn [t_ph t_added t_ev] in UU; destruct (t_added p); cbn [andb] in UU; try lia end).
  unfold waits at 2. cbn [t_added t_ph]. destruct (s_eosed s); cbn; lia.
Qed.

Lemma step_signal2 a s s' : Inv s -> sub_step a s = Some s' -> s_waiter s' = WDone -> s_wg s' = 0.
Proof.
  intros I H. pose proof (i_signal2 s I) as IC. pose proof (i_waiter s I) as IW.
  step_cases H; try exact IC; intro Q; try discriminate; auto.
  - rewrite Q in IW. rewrite IW. auto.
  - specialize (IC Q). destruct (t_added t); lia.
Qed.

Lemma step_added a s s' : Inv s -> sub_step a s = Some s' ->
  forall i t, nth_error (s_tasks s') i = Some t -> if t_added t then ~ earlier LEoseMsg (LRecv i (t_ev t)) (s_log s') else earlier LEoseMsg (LRecv i (t_ev t)) (s_log s').
Proof.
  intros I H. pose proof (i_added s I) as IC. pose proof (i_eosed s I) as IE. pose proof (i_recv s I) as IR.
  assert (KEEP : forall i t ph, nth_error (s_tasks s) i = Some t ->
    forall j t', nth_error (upd (s_tasks s) i (mkT (t_ev t) (t_added t) ph)) j = Some t' -> exists t0, nth_error (s_tasks s) j = Some t0 /\ t_added t0 = t_added t' /\ t_ev t0 = t_ev t').
  { intros i t ph HI j t' HN. apply nth_upd in HN as [[<- ->]|[NE HN]]; eauto. }
  assert (ADD : forall o, (forall j e, o <> LRecv j e) -> forall i t, nth_error (s_tasks s) i = Some t ->
     if t_added t then ~ earlier LEoseMsg (LRecv i (t_ev t)) (o :: s_log s) else earlier LEoseMsg (LRecv i (t_ev t)) (o :: s_log s)).
  { intros o HO i t HN. specialize (IC i t HN). destruct (t_added t).
    - intro Q. apply earlier_inv in Q as [[Q _]|Q]; [destruct (HO _ _ Q)|auto].
    - apply earlier_cons, IC. }
  step_cases H; try exact IC; unfold set_task; try (match goal with conn : bool |- _ => destruct conn end); try exact IC; intros j t' HN;
    try (apply ADD; [intros; discriminate|exact HN]);
    try (match goal with HP : nth_error (s_tasks _) _ = Some ?p |- _ => destruct (KEEP _ _ _ HP _ _ HN) as (t0 & H0 & HA & HE); rewrite <- HA, <- HE; first [apply (IC _ _ H0)|apply ADD; [intros; discriminate|exact H0]] end).
  - apply nth_snoc in HN as [HN|[-> ->]].
    + pose proof (IC j t' HN) as IJ. destruct (t_added t').
      * intro Q. apply earlier_inv in Q as [[Q _]|Q]; [|auto]. injection Q as Q _. apply nth_lt in HN. lia.
      * apply earlier_cons, IJ.
    + cbn [t_added t_ev]. destruct (s_eosed s); cbn [negb].
      * apply earlier_new, IE. reflexivity.
      * intro Q. apply earlier_inv in Q as [[_ Q]|Q]; [apply IE in Q; discriminate|]. apply earlier_in in Q as [Q _]. apply IE in Q. discriminate.
Qed.

Lemma step_out a s s' : Inv s -> sub_step a s = Some s' -> s_crashed s' = false -> forall i t, nth_error (s_tasks s') i = Some t ->
     match t_ph t with
     | TWait | TSend => (forall e, ~ In (LDeliver i e) (s_log s')) /\ (forall e, ~ In (LDrop i e) (s_log s'))
     | _ => In (LDeliver i (t_ev t)) (s_log s') \/ In (LDrop i (t_ev t)) (s_log s')
     end.
Proof.
  intros I H. pose proof (i_out s I) as IC. pose proof (i_fresh s I) as IF.
  assert (ADD : forall o, (forall j e, o <> LDeliver j e) -> (forall j e, o <> LDrop j e) -> forall i t, nth_error (s_tasks s) i = Some t ->
     match t_ph t with
     | TWait | TSend => (forall e, ~ In (LDeliver i e) (o :: s_log s)) /\ (forall e, ~ In (LDrop i e) (o :: s_log s))
     | _ => In (LDeliver i (t_ev t)) (o :: s_log s) \/ In (LDrop i (t_ev t)) (o :: s_log s)
     end).
  { intros o H1 H2 i t HN. specialize (IC i t HN). cbn [In]. destruct (t_ph t); try (destruct IC; auto);
    split; intros e [Q|Q]; try (apply (H1 _ _ Q)); try (apply (H2 _ _ Q)); firstorder. }
  step_cases H; try (intros _; exact IC); unfold set_task; try (match goal with conn : bool |- _ => destruct conn end); try (intros _; exact IC); intros CR j t' HN;
    try discriminate CR;
    try (apply ADD; [intros; discriminate|intros; discriminate|exact HN]).
  - (* dispatch *) apply nth_snoc in HN as [HN|[-> ->]]; [apply ADD; [intros; discriminate|intros; discriminate|exact HN]|].
    cbn [t_ph]. logs. split; intros e' [Q|Q]; try discriminate Q; (assert (length (s_tasks s) < length (s_tasks s)) by eauto); lia.
  - apply nth_upd in HN as [[<- ->]|[NE HN]]; [|apply (IC _ _ HN)]. specialize (IC _ _ Heqo). rewrite Heqt0 in IC. exact IC.
  - apply nth_upd in HN as [[<- ->]|[NE HN]]; [cbn; auto|]. specialize (IC _ _ HN). logs. destruct (t_ph t'); try (destruct IC; auto);
      split; intros e' [Q|Q]; try congruence; firstorder.
  - apply nth_upd in HN as [[<- ->]|[NE HN]]; [cbn; auto|]. specialize (IC _ _ HN). logs. destruct (t_ph t'); try (destruct IC; auto);
      split; intros e' [Q|Q]; try congruence; firstorder.
  - apply nth_upd in HN as [[<- ->]|[NE HN]]; [cbn; auto|]. specialize (IC _ _ HN). logs. destruct (t_ph t'); try (destruct IC; auto);
      split; intros e' [Q|Q]; try congruence; firstorder.
  - apply nth_upd in HN as [[<- ->]|[NE HN]]; [|apply (IC _ _ HN)]. specialize (IC _ _ Heqo). rewrite Heqt0 in IC. exact IC.
  - apply nth_upd in HN as [[<- ->]|[NE HN]]; [|apply (IC _ _ HN)]. specialize (IC _ _ Heqo). rewrite Heqt0 in IC. exact IC.
Qed.

Lemma step_order a s s' : Inv s -> sub_step a s = Some s' -> in_order ok_obs (s_log s').
Proof.
  intros I H. pose proof (i_order s I) as IO. step_cases H; try exact IO; try (match goal with |- context [if ?c then _ :: _ else _] => destruct c end); try exact IO;
    (split; [|exact IO]); cbn [ok_obs]; try exact Logic.I.
  - (* fire *) rewrite <- (i_fired s I). congruence.
  - (* recv *) intros e' Q. apply (i_recv s I) in Q as (t & HN & _). apply nth_lt in HN. lia.
  - (* eose *) rewrite <- (i_eosed s I). congruence.
  - (* signal *) split; [|split].
    + rewrite <- (i_signal s I). congruence.
    + apply (i_eosed s I). pose proof (i_waiter s I) as W. rewrite Heqw in W. exact W.
    + intros i e Q. pose proof (earlier_in _ _ _ Q) as [Q1 _]. apply (i_recv s I) in Q1 as (t & HN & HE).
      pose proof (i_added s I i t HN) as A. pose proof (i_out s I i t HN) as O. pose proof (i_wg s I) as W.
      assert (t_added t = true).
      { destruct (t_added t) eqn:TA; [reflexivity|]. exfalso. rewrite HE in A. clear - A Q IO.
        assert (ND : forall l, in_order ok_obs l -> earlier LEoseMsg (LRecv i e) l -> earlier (LRecv i e) LEoseMsg l -> False).
        { clear. induction l as [|x l IH]; intros IO A Q.
          - destruct A as (l2 & l1 & A & _). destruct l2; discriminate A.
          - destruct IO as [OK IO]. apply earlier_inv in A as [[-> A]|A]; apply earlier_inv in Q as [[Q1 Q]|Q]; try discriminate.
            + apply earlier_in in Q as [Q _]. exact (OK _ Q).
            + subst x. apply earlier_in in A as [A _]. exact (OK A).
            + eauto. }
        eauto. }
      rewrite Heqn in W. assert (waits t = false) by (eapply cnt_zero; [symmetry; exact W|eapply nth_error_In; exact HN]).
      unfold waits in *. rewrite H in *. cbn [andb] in *. rewrite HE in O. destruct (t_ph t); try discriminate; exact O.
  - (* drop, not live *) pose proof (i_out s I i t Heqo) as O. rewrite Heqt0 in O. destruct O as [O1 O2].
    split; [|split; [|split]]; auto.
    + apply (i_recv s I). eauto.
    + destruct (s_fired s) eqn:F; [right; left; apply (i_dead s I); assumption|]. right. right. rewrite <- (i_fired s I). congruence.
  - (* deliver *) pose proof (i_out s I i t Heqo) as O. rewrite Heqt0 in O. destruct O as [O1 O2].
    split; [|split; [|split; [|split; [|split]]]]; auto.
    + apply (i_recv s I). eauto.
    + rewrite <- (i_chan s I). congruence.
    + apply (i_fired s I). eapply (i_send s I); eassumption.
    + intro Q. apply (i_signal s I) in Q. pose proof (i_signal2 s I Q) as W0. pose proof (i_wg s I) as W. rewrite W0 in W.
      assert (waits t = false) by (eapply cnt_zero; [symmetry; exact W|eapply nth_error_In; exact Heqo]).
      unfold waits in *. rewrite Heqt0, andb_true_r in *. pose proof (i_added s I i t Heqo) as A. rewrite H in A. exact A.
  - (* drop, cancelled *) pose proof (i_out s I i t Heqo) as O. rewrite Heqt0 in O. destruct O as [O1 O2].
    split; [|split; [|split]]; auto.
    + apply (i_recv s I). eauto.
    + left. apply (i_cancel s I). assumption.
  - (* CLOSE *) pose proof (i_closemsg s I) as [C1 C2]. assert (0 < cnt closing (s_procs s)) by (eapply cnt_pos; [exact Heqo|]; unfold closing; rewrite Heqp0; reflexivity).
    split; [|split].
    + intro Q. apply C2 in Q. lia.
    + apply (i_fired s I). destruct (s_fired s); [reflexivity|lia].
    + apply (i_cancel s I). pose proof (i_pcancel s I _ _ Heqo) as P. rewrite Heqp0 in P. exact P.
  - (* close channel *) split.
    + rewrite <- (i_chan s I). intro Q. apply (i_chan2 s I) in Q as (q & HN & HQ).
      assert (i = 0). { apply (i_start s I _ _ Heqo). apply (i_pstart s I _ _ Heqo). rewrite Heqp0. reflexivity. } subst i.
      rewrite Heqo in HN. injection HN as ->. rewrite Heqp0 in HQ. destruct HQ; discriminate.
    + apply (i_cancel s I). pose proof (i_pcancel s I _ _ Heqo) as P. rewrite Heqp0 in P. exact P.
Qed.

Lemma inv_init : Inv sub_init.
Proof.
  constructor; cbn [sub_init s_live s_eosed s_cancelled s_deleted s_fired s_lock s_wg s_waiter s_closed s_crashed s_reader s_tasks s_procs s_log in_order In cnt closing p_pc];
    intros; cbn [length]; try discriminate; try tauto; try lia; try (split; [discriminate|contradiction]); try (split; [contradiction|]); try (split; [discriminate|]); try reflexivity;
    try (intros (t & HN & _); destruct i; discriminate);
    try (match goal with HN : nth_error [] ?i = Some _ |- _ => destruct i; discriminate HN end);
    try (match goal with HN : nth_error [_] ?i = Some _ |- _ => destruct i as [|[|i]]; cbn in HN; try discriminate HN; injection HN as <-; cbn; tauto end).
  - intros (t & HN & HP). destruct i as [|[|i]]; cbn in HN; try discriminate. injection HN as <-. discriminate.
  - intros (p & HN & HQ). injection HN as <-. destruct HQ; discriminate.
Qed.

Lemma inv_step a s s' : Inv s -> sub_step a s = Some s' -> s_crashed s' = false -> Inv s'.
Proof.
  intros I H CR. constructor.
  - eapply step_order; eassumption.
  - eapply step_recv; eassumption.
  - eapply step_out; eassumption.
  - eapply step_fresh; eassumption.
  - eapply step_wg; eassumption.
  - eapply step_eosed; eassumption.
  - eapply step_waiter; eassumption.
  - eapply step_signal; eassumption.
  - eapply step_signal2; eassumption.
  - eapply step_added; eassumption.
  - eapply step_lockt; eassumption.
  - eapply step_lockp; eassumption.
  - eapply step_start; eassumption.
  - eapply step_start0; eassumption.
  - eapply step_pstart; eassumption.
  - eapply step_chan; eassumption.
  - eapply step_chan2; eassumption.
  - eapply step_cancel; eassumption.
  - eapply step_pcancel; eassumption.
  - eapply step_fired; eassumption.
  - eapply step_live; eassumption.
  - eapply step_dead; eassumption.
  - eapply step_closemsg; eassumption.
  - eapply step_send; eassumption.
Qed.

Lemma crashed_stuck a s s' : sub_step a s = Some s' -> s_crashed s = false.
Proof. unfold sub_step. destruct (s_crashed s); [discriminate|reflexivity]. Qed.

Definition reachable s := reaches sub_step sub_init s.

(** Every reachable history is in order, and every reachable state that has not crashed has the invariant. *)
Lemma reachable_inv s : reachable s -> in_order ok_obs (s_log s) /\ (s_crashed s = false -> Inv s).
Proof.
  apply (invariant sub_step (fun s => in_order ok_obs (s_log s) /\ (s_crashed s = false -> Inv s))).
  - split; [exact Logic.I|intros _; exact inv_init].
  - intros a s1 s2 [_ I] H. specialize (I (crashed_stuck _ _ _ H)). split; [eapply step_order; eassumption|]. intro CR. eapply inv_step; eassumption.
Qed.

(** Runs in which Fire does not come after a cancellation. *)
Definition past_cas (c : pc) : bool := match c with PClose | PDelete | PLock | PCloseCh | PUnlock | PEnd => true | _ => false end.
Definition fire_first s := ~ earlier LCancel LFire (s_log s).
Definition Strict s := s_crashed s = false /\ Inv s /\
  (forall i p, nth_error (s_procs s) i = Some p -> past_cas (p_pc p) = true -> s_live s = false) /\
  (s_closed s = true -> forall i t, nth_error (s_tasks s) i = Some t -> t_ph t <> TSend).

Lemma fire_first_back a s s' : sub_step a s = Some s' -> fire_first s' -> fire_first s.
Proof.
  intros H F Q. apply F. step_cases H; try exact Q; try (apply earlier_cons; exact Q).
  match goal with |- context [if ?c then _ :: _ else _] => destruct c end; [apply earlier_cons|]; exact Q.
Qed.

Lemma strict_step a s s' : Strict s -> sub_step a s = Some s' -> fire_first s' -> Strict s'.
Proof.
  intros (CR & I & L & T) H F.
  assert (CR' : s_crashed s' = false).
  { pose proof (i_chan2 s I) as C2. pose proof (i_start s I) as IS. pose proof (i_pstart s I) as IQ. clear F. step_cases H; try exact CR; try reflexivity; try assumption.
    - exfalso. exact (T eq_refl _ _ Heqo Heqt0).
    - cbn [orb]. destruct (s_closed s) eqn:SC; [|rewrite HC; reflexivity]. exfalso.
      assert (i = 0). { apply (IS _ _ Heqo). apply (IQ _ _ Heqo). rewrite Heqp0. reflexivity. } subst i.
      destruct (proj1 C2 eq_refl) as (q & HN & HQ). rewrite Heqo in HN. injection HN as ->. rewrite Heqp0 in HQ. destruct HQ; discriminate. }
  assert (I' : Inv s') by (eapply inv_step; eassumption).
  split; [exact CR'|]. split; [exact I'|].
  assert (L' : forall i p, nth_error (s_procs s') i = Some p -> past_cas (p_pc p) = true -> s_live s' = false).
  { pose proof (i_pcancel s I) as PC. pose proof (i_cancel s I) as CC. clear CR' I' T. unfold fire_first in F. step_cases H; try exact L.
    - intros i p HN HP. exfalso. apply F. apply earlier_new. apply CC. specialize (PC i p HN). destruct (p_pc p); try discriminate; exact PC.
    - intros j q HN HP. apply nth_snoc in HN as [HN|[-> ->]]; [eauto|discriminate].
    - intros j q HN HP. apply nth_snoc in HN as [HN|[-> ->]]; [eauto|discriminate].
    - intros j q HN HP. apply nth_upd in HN as [[<- ->]|[NE HN]]; [discriminate|eauto].
    - reflexivity.
    - intros j q HN HP. apply nth_upd in HN as [[<- ->]|[NE HN]]; [discriminate|eauto].
    - reflexivity.
    - reflexivity.
    - intros j q HN HP. apply nth_upd in HN as [[<- ->]|[NE HN]]; [|eauto]. apply (L _ _ Heqo). rewrite Heqp0. reflexivity.
    - intros j q HN HP. apply nth_upd in HN as [[<- ->]|[NE HN]]; [|eauto]. apply (L _ _ Heqo). rewrite Heqp0. reflexivity.
    - intros j q HN HP. apply nth_upd in HN as [[<- ->]|[NE HN]]; [|eauto]. apply (L _ _ Heqo). rewrite Heqp0. reflexivity.
    - intros j q HN HP. apply nth_upd in HN as [[<- ->]|[NE HN]]; [|eauto]. apply (L _ _ Heqo). rewrite Heqp0. reflexivity.
    - intros j q HN HP. apply nth_upd in HN as [[<- ->]|[NE HN]]; [|eauto]. apply (L _ _ Heqo). rewrite Heqp0. reflexivity. }
  split; [exact L'|].
  assert (LIVE : s_closed s = true -> s_live s = false).
  { intro C. apply (i_chan2 s I) in C as (q & HN & HQ). apply (L _ _ HN). destruct HQ as [-> | ->]; reflexivity. }
  pose proof (i_lockt s I) as LT. pose proof (i_lockp s I) as LP. clear F CR' I' L' L.
  step_cases H; try exact T; intros C j t' HN HP; unfold set_task in HN.
  all: try (apply nth_snoc in HN as [HN|[-> ->]]; [|discriminate HP]; exact (T C _ _ HN HP)).
  all: try (apply nth_upd in HN as [[<- ->]|[NE HN]]; [|exact (T C _ _ HN HP)]).
  all: try discriminate HP; try (specialize (LIVE C); congruence).
  assert (Q1 : s_lock s = Some (HProc i)) by (apply LP; exists p; rewrite Heqp0; auto).
  assert (Q2 : s_lock s = Some (HTask j)) by (apply LT; exists t'; rewrite HP; auto). congruence.
Qed.

Lemma strict_reachable s : reachable s -> fire_first s -> Strict s.
Proof.
  intros [l H]. revert s H.
  assert (G : forall (l : list (action E)) s0 s, Strict s0 -> exec sub_step l s0 = Some s -> fire_first s -> Strict s).
  { clear. induction l as [|a l IH]; intros s0 s S0 H F; cbn [exec] in H.
    - injection H as <-. exact S0.
    - destruct (sub_step a s0) as [s1|] eqn:E1; [|discriminate]. apply (IH s1 s); [|exact H|exact F].
      eapply strict_step; [exact S0|exact E1|]. clear IH S0 E1. revert s1 H.
      induction l as [|b l IH2]; intros s1 H; cbn [exec] in H; [injection H as <-; exact F|].
      destruct (sub_step b s1) as [s2|] eqn:E2; [|discriminate]. eapply fire_first_back; [exact E2|]. eapply IH2; exact H. }
  intros s H F. eapply G; [|exact H|exact F]. split; [reflexivity|]. split; [exact inv_init|]. split.
  - intros i p HN. destruct i as [|[|i]]; cbn in HN; try discriminate. injection HN as <-. discriminate.
  - discriminate.
Qed.

(** The steps that the program takes by itself, the consumer reading when it can. *)
Definition internal (a : action E) : Prop := match a with ATask _ _ | AProc _ _ | ASignal => True | _ => False end.
Definition t_weight (t : task) : nat := match t_ph t with TWait => 4 | TSend => 3 | TCount => 2 | TRelease => 1 | TDone => 0 end.
Definition p_weight (p : proc) : nat :=
  match p_pc p with PWait => 9 | PStore => 9 | PCancel => 8 | PCas => 7 | PClose => 6 | PDelete => 5 | PLock => 4 | PCloseCh => 3 | PUnlock => 2 | PEnd => 0 end.
Definition total {X} (f : X -> nat) (l : list X) : nat := fold_right (fun x n => f x + n) 0 l.
Definition weight s : nat := total t_weight (s_tasks s) + total p_weight (s_procs s) + match s_waiter s with WWait => 1 | _ => 0 end.

Lemma total_upd {X} (f : X -> nat) (l : list X) i x y : nth_error l i = Some y -> total f (upd l i x) + f y = total f l + f x.
Proof. revert i. induction l as [|z l IH]; intros [|i] H; try discriminate; cbn [upd total fold_right nth_error] in *; [injection H as ->; lia|]. specialize (IH i H). unfold total in *. lia. Qed.

Lemma internal_decreases a s s' : internal a -> sub_step a s = Some s' -> weight s' < weight s.
Proof.
  intros IA H. unfold weight. destruct a; try contradiction; clear IA.
  all: unfold sub_step in H; destruct (s_crashed s); [discriminate|].
  - destruct (s_waiter s) eqn:W; try discriminate. destruct (s_wg s); try discriminate. injection H as <-. sproj. lia.
  - destruct (nth_error (s_tasks s) i) as [t|] eqn:HN; [|discriminate]. unfold task_step in H.
    pose proof (fun ph => total_upd t_weight _ _ (mkT (t_ev t) (t_added t) ph) _ HN) as U. unfold t_weight at 2 4 in U. cbn [t_ph] in U.
    destruct (t_ph t); repeat match type of H with
      | match ?o with Some _ => _ | None => _ end = _ => destruct o
      | (if ?b then _ else _) = _ => destruct b
      | match ?c with CSend => _ | CDone => _ end = _ => destruct c
      end; try discriminate; injection H as <-; sproj; unfold set_task;
      match goal with |- context [upd _ _ (mkT _ _ ?ph)] => specialize (U ph); cbn in U; lia end.
  - destruct (nth_error (s_procs s) i) as [p|] eqn:HN; [|discriminate]. unfold proc_step in H. cbv zeta in H.
    pose proof (fun c => total_upd p_weight _ _ (mkP (p_kind p) c) _ HN) as U. unfold p_weight at 2 4 in U. cbn [p_pc] in U.
    destruct (p_pc p); repeat match type of H with
      | match ?o with Some _ => _ | None => _ end = _ => destruct o
      | (if ?b then _ else _) = _ => destruct b
      end; try discriminate; injection H as <-; sproj; unfold set_proc;
      match goal with |- context [upd _ _ (mkP _ ?c)] => specialize (U c); cbn in U; try lia end.
    destruct (p_kind p); lia.
Qed.

Definition quiet s := forall a, internal a -> sub_step a s = None.

Lemma quiet_done s : Inv s -> s_crashed s = false -> quiet s ->
  (forall i t, nth_error (s_tasks s) i = Some t -> t_ph t = TDone) /\
  (forall i p, nth_error (s_procs s) i = Some p -> p_pc p = PEnd \/ (p_pc p = PWait /\ s_cancelled s = false)) /\
  s_waiter s <> WWait.
Proof.
  intros I CR Q.
  assert (TQ : forall i t, nth_error (s_tasks s) i = Some t -> t_ph t = TDone \/ (t_ph t = TWait /\ s_lock s <> None)).
  { intros i t HN. pose proof (Q (ATask i CSend) Logic.I) as S. unfold sub_step in S. rewrite CR, HN in S. unfold task_step in S.
    destruct (t_ph t); auto.
    - right. split; [reflexivity|]. destruct (s_lock s); [discriminate|]. destruct (s_live s); discriminate.
    - destruct (s_closed s); discriminate.
    - discriminate.
    - discriminate. }
  assert (PQ : forall i p, nth_error (s_procs s) i = Some p -> p_pc p = PEnd \/ (p_pc p = PWait /\ s_cancelled s = false) \/ (p_pc p = PLock /\ s_lock s <> None)).
  { intros i p HN. pose proof (Q (AProc i true) Logic.I) as S. unfold sub_step in S. rewrite CR, HN in S. unfold proc_step in S.
    destruct (p_pc p); auto; try discriminate.
    - destruct (s_cancelled s); [discriminate|auto].
    - destruct (s_live s); discriminate.
    - right. right. split; [reflexivity|]. destruct (s_lock s); [discriminate|]. discriminate. }
  assert (LK : s_lock s = None).
  { destruct (s_lock s) as [[i|i]|] eqn:LK; [| |reflexivity]; exfalso.
    - apply (i_lockt s I) in LK as (t & HN & HL). destruct (TQ _ _ HN) as [HP|[HP _]]; rewrite HP in HL; discriminate.
    - apply (i_lockp s I) in LK as (p & HN & HL). destruct (PQ _ _ HN) as [HP|[[HP _]|[HP _]]]; rewrite HP in HL; discriminate. }
  assert (TD : forall i t, nth_error (s_tasks s) i = Some t -> t_ph t = TDone).
  { intros i t HN. destruct (TQ _ _ HN) as [HP|[_ HP]]; [exact HP|congruence]. }
  split; [exact TD|]. split.
  - intros i p HN. destruct (PQ _ _ HN) as [HP|[HP|[_ HP]]]; auto. congruence.
  - intro W. pose proof (Q ASignal Logic.I) as S. unfold sub_step in S. rewrite CR, W in S.
    assert (s_wg s = 0).
    { rewrite (i_wg s I). assert (G : forall l : list task, (forall i t, nth_error l i = Some t -> t_ph t = TDone) -> cnt waits l = 0).
      { clear. induction l as [|t l IH]; intro H; [reflexivity|]. cbn [cnt]. rewrite IH by (intros i t' HN; exact (H (S i) t' HN)).
        unfold waits. rewrite (H 0 t eq_refl). rewrite andb_false_r. reflexivity. }
      apply G, TD. }
    rewrite H in S. discriminate.
Qed.

(** From any state the internal steps run out. *)
Lemma quiet_reachable s : s_crashed s = false -> exists s', reaches sub_step s s' /\ (s_crashed s' = true \/ quiet s') .
Proof.
  remember (weight s) as n eqn:EN. revert s EN. induction n as [n IH] using lt_wf_ind. intros s -> CR.
  assert (D : quiet s \/ exists a s', internal a /\ sub_step a s = Some s').
  { destruct (sub_step ASignal s) as [s1|] eqn:E1; [right; exists ASignal, s1; split; [exact Logic.I|exact E1]|].
    assert (DT : (exists i c s', i < length (s_tasks s) /\ sub_step (ATask i c) s = Some s') \/ (forall i c, sub_step (ATask i c) s = None)).
    { assert (G : forall n, (exists i c s', i < n /\ sub_step (ATask i c) s = Some s') \/ (forall i c, i < n -> sub_step (ATask i c) s = None)).
      { clear. induction n as [|n [IH|IH]]; [right; intros; lia|left; destruct IH as (i & c & s' & L & H); exists i, c, s'; split; [lia|exact H]|].
        destruct (sub_step (ATask n CSend) s) as [s1|] eqn:E1; [left; exists n, CSend, s1; auto|].
        destruct (sub_step (ATask n CDone) s) as [s1|] eqn:E2; [left; exists n, CDone, s1; auto|].
        right. intros i c L. destruct (Nat.eq_dec i n) as [->|]; [destruct c; assumption|apply IH; lia]. }
      destruct (G (length (s_tasks s))) as [G1|G1]; [left; exact G1|]. right. intros i c.
      destruct (Nat.lt_ge_cases i (length (s_tasks s))) as [L|L]; [apply G1; exact L|].
      unfold sub_step. rewrite (proj2 (nth_error_None _ _) L). destruct (s_crashed s); reflexivity. }
    assert (DP : (exists i c s', i < length (s_procs s) /\ sub_step (AProc i c) s = Some s') \/ (forall i c, sub_step (AProc i c) s = None)).
    { assert (G : forall n, (exists i c s', i < n /\ sub_step (AProc i c) s = Some s') \/ (forall i c, i < n -> sub_step (AProc i c) s = None)).
      { clear. induction n as [|n [IH|IH]]; [right; intros; lia|left; destruct IH as (i & c & s' & L & H); exists i, c, s'; split; [lia|exact H]|].
        destruct (sub_step (AProc n true) s) as [s1|] eqn:E1; [left; exists n, true, s1; auto|].
        destruct (sub_step (AProc n false) s) as [s1|] eqn:E2; [left; exists n, false, s1; auto|].
        right. intros i c L. destruct (Nat.eq_dec i n) as [->|]; [destruct c; assumption|apply IH; lia]. }
      destruct (G (length (s_procs s))) as [G1|G1]; [left; exact G1|]. right. intros i c.
      destruct (Nat.lt_ge_cases i (length (s_procs s))) as [L|L]; [apply G1; exact L|].
      unfold sub_step. rewrite (proj2 (nth_error_None _ _) L). destruct (s_crashed s); reflexivity. }
    destruct DT as [(i & c & s1 & _ & H)|DT]; [right; exists (ATask i c), s1; split; [exact Logic.I|exact H]|].
    destruct DP as [(i & c & s1 & _ & H)|DP]; [right; exists (AProc i c), s1; split; [exact Logic.I|exact H]|].
    left. intros a IA. destruct a; try contradiction; auto. }
  destruct D as [D|(a & s1 & IA & H)]; [exists s; split; [apply reaches_refl|auto]|].
  destruct (s_crashed s1) eqn:C1.
  - exists s1. split; [eapply reaches_step; exact H|auto].
  - destruct (IH (weight s1) (internal_decreases _ _ _ IA H) s1 eq_refl C1) as (s2 & R & Q). exists s2. split; [|exact Q].
    eapply reaches_trans; [eapply reaches_step; exact H|exact R].
Qed.
(** The subscription is taken out of the map before the channel is closed. *)
Definition past_delete (c : pc) : bool := match c with PLock | PCloseCh | PUnlock | PEnd => true | _ => false end.
Definition is_recv (o : obs) : bool := match o with LRecv _ _ => true | _ => false end.
Definition is_chan_close (o : obs) : bool := match o with LChanClose => true | _ => false end.
Fixpoint since_close (l : list obs) : nat :=
  match l with
  | [] => 0
  | o :: r => if existsb is_chan_close r then (if is_recv o then 1 else 0) + since_close r else 0
  end.
Definition Gone s : Prop :=
  (forall i p, nth_error (s_procs s) i = Some p -> past_delete (p_pc p) = true -> s_deleted s = true) /\
  (existsb is_chan_close (s_log s) = true -> s_deleted s = true) /\
  since_close (s_log s) + (match s_reader s with Some _ => 1 | None => 0 end) <= 1.
Lemma since_open l : existsb is_chan_close l = false -> since_close l = 0.
Proof. destruct l as [|o l]; [reflexivity|]. cbn [existsb since_close]. intro H. apply orb_false_iff in H as [_ ->]. reflexivity. Qed.
Lemma gone_reachable s : reachable s -> Gone s.
Proof.
  revert s. apply (invariant sub_step Gone).
  - split; [|split; [discriminate|cbn; lia]]. intros [|i] p H Q; cbn in H; [injection H as <-; discriminate Q|]. destruct i; discriminate H.
  - intros a s s' (I & C & N) H.
    assert (K : existsb is_chan_close (s_log s) = false -> since_close (s_log s) = 0) by apply since_open.
    unfold Gone. step_cases H; (split; [intros j q HJ Q; try reflexivity;
      try (exact (I j q HJ Q));
      try (apply nth_snoc in HJ as [HJ|[_ ->]]; [exact (I j q HJ Q)|discriminate Q]);
      try (apply nth_upd in HJ as [[<- ->]|[_ HJ]]; [|exact (I j q HJ Q)]; cbn [p_pc past_delete] in Q; try discriminate Q;
           match goal with HN : nth_error (s_procs ?x) _ = Some ?p0, HP : p_pc ?p0 = _ |- _ => exact (I _ _ HN ltac:(rewrite HP; reflexivity)) end) |]);
      try (split; [exact C|exact N]);
      try (match goal with conn : bool |- _ => destruct conn end);
      sproj; cbn [existsb is_chan_close orb since_close is_recv] in *; (split; [try exact C; try reflexivity|]);
      try (destruct (existsb is_chan_close (s_log s)); cbn [Nat.add] in *; try lia).
  all: try (match goal with HR : s_reader ?x = None |- _ => rewrite HR; exact N end).
  all: intros _; match goal with HN : nth_error (s_procs ?x) _ = Some ?p0, HP : p_pc ?p0 = _ |- _ => exact (I _ _ HN ltac:(rewrite HP; reflexivity)) end.
Qed.

End SubProofs.
