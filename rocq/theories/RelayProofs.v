(** Invariants of Publish, Close and the reader. *)
From Verif Require Import Base Machine EventModel FilterModel EnvelopeModel JLexProofs RelayModel.
Import ListNotations.

(** ** Publish *)
Definition accepted (i : nat) (l : list pobs) : Prop := exists id r, In (NStart i id) l /\ In (NAnswer i id true r) l.
Definition rejected (i : nat) (r : str) (l : list pobs) : Prop := exists id, In (NStart i id) l /\ In (NAnswer i id false r) l.
Lemma accepted_cons i o l : accepted i l -> accepted i (o :: l).
Proof. intros (id & r & H1 & H2). exists id, r. cbn. auto. Qed.
Lemma rejected_cons i r o l : rejected i r l -> rejected i r (o :: l).
Proof. intros (id & H1 & H2). exists id. cbn. auto. Qed.

Definition outcome_ok (i : nat) (r : presult) (l : list pobs) : Prop :=
  match r with
  | POk => accepted i l \/ In NLost l \/ In (NExpire i) l
  | PRejected x => rejected i x l
  | PCtx => In (NExpire i) l
  | PWriteError => True
  end.
Lemma outcome_ok_cons i r o l : outcome_ok i r l -> outcome_ok i r (o :: l).
Proof. destruct r; cbn [outcome_ok]; try (intuition (auto using accepted_cons; fail)); cbn; intuition auto using accepted_cons, rejected_cons. Qed.

Definition ok_pobs (o : pobs) (l : list pobs) : Prop :=
  match o with
  | NAnswer i id _ _ => In (NStart i id) l
  | NReturn i r => outcome_ok i r l /\ (forall r', ~ In (NReturn i r') l)
  | NStart i _ => forall id, ~ In (NStart i id) l
  | _ => True
  end.

Definition started (p : pub) : bool := match pb_ph p with QStore => false | _ => true end.
Record PInv (s : pstate) : Prop := mkPI {
  pi_order : in_order ok_pobs (ps_log s);
  pi_start : forall i id, In (NStart i id) (ps_log s) <-> exists p, nth_error (ps_pubs s) i = Some p /\ pb_id p = id /\ started p = true;
  pi_map : forall id i, map_find id (ps_map s) = Some i -> In (NStart i id) (ps_log s);
  pi_got : forall i p, nth_error (ps_pubs s) i = Some p -> pb_done p = true ->
     In (NExpire i) (ps_log s) \/ (pb_got p = true /\ (pb_err p = None -> accepted i (ps_log s)));
  pi_err : forall i p r, nth_error (ps_pubs s) i = Some p -> pb_err p = Some r -> rejected i r (ps_log s);
  pi_lost : ps_lost s = true -> In NLost (ps_log s);
  pi_cb : match ps_cb s with
          | Some (CGot i ok r) => exists id, In (NStart i id) (ps_log s) /\ In (NAnswer i id ok r) (ps_log s)
          | Some (CErr i ok r) => (exists id, In (NStart i id) (ps_log s) /\ In (NAnswer i id ok r) (ps_log s)) /\ (exists p, nth_error (ps_pubs s) i = Some p /\ pb_got p = true)
          | Some (CCancel i) => exists p, nth_error (ps_pubs s) i = Some p /\ pb_got p = true /\ (pb_err p = None -> accepted i (ps_log s))
          | None => True
          end;
  pi_ret : forall i p, nth_error (ps_pubs s) i = Some p -> match pb_ph p with
     | QDelete r => outcome_ok i r (ps_log s) | _ => True end;
  pi_once : forall i r, In (NReturn i r) (ps_log s) -> exists p, nth_error (ps_pubs s) i = Some p /\ pb_ph p = QEnd r
}.

Lemma map_remove_find id k m i : map_find k (map_remove id m) = Some i -> map_find k m = Some i.
Proof.
  induction m as [|[a j] m IH]; [discriminate|]. cbn [map_remove filter fst]. destruct (seqb a id) eqn:Q; cbn [negb].
  - intro H. cbn [map_find]. destruct (seqb a k) eqn:Q2; [|auto].
    exfalso. apply seqb_eq in Q, Q2. subst. clear IH. induction m as [|[b n] m IH2]; [discriminate|].
    cbn [map_remove filter fst] in H. destruct (seqb b k) eqn:QB; cbn [negb] in H; [apply IH2, H|]. cbn [map_find] in H. rewrite QB in H. apply IH2, H.
  - cbn [map_find]. destruct (seqb a k); auto.
Qed.

Ltac pproj := cbn [ps_pubs ps_map ps_cb ps_lost ps_log pb_id pb_ph pb_got pb_err pb_done set_ph] in *.
Ltac pub_cases H :=
  unfold publish_step in H;
  match type of H with context [match ?a with BNew _ => _ | _ => _ end] => destruct a as [?id|?i ?lc|?i|?id ?ok ?r| |?i|] end;
  repeat match type of H with
  | (if ?b then _ else _) = _ => destruct b eqn:?
  | match ?o with Some _ => _ | None => _ end = _ => destruct o eqn:?
  | match ?w with QStore => _ | _ => _ end = _ => destruct w eqn:?
  | match ?w with CGot _ _ _ => _ | _ => _ end = _ => destruct w eqn:?
  | None = Some _ => discriminate H
  end; try discriminate H; injection H as <-; pproj.

(** What a step may do to the publishes already there. *)
Lemma pub_fields a s s' : publish_step a s = Some s' ->
  (forall i p', nth_error (ps_pubs s') i = Some p' -> 
     (exists p, nth_error (ps_pubs s) i = Some p /\ pb_id p' = pb_id p /\ (started p = true -> started p' = true)) \/
     (i = length (ps_pubs s) /\ started p' = false /\ pb_got p' = false /\ pb_err p' = None /\ pb_done p' = false)) /\
  (forall i p, nth_error (ps_pubs s) i = Some p -> exists p', nth_error (ps_pubs s') i = Some p' /\ pb_id p' = pb_id p /\ (started p = true -> started p' = true)).
Proof.
  intro H.
  assert (KEEP : forall i p x, nth_error (ps_pubs s) i = Some p -> pb_id x = pb_id p -> (started p = true -> started x = true) ->
   (forall j p', nth_error (upd (ps_pubs s) i x) j = Some p' ->
     (exists p, nth_error (ps_pubs s) j = Some p /\ pb_id p' = pb_id p /\ (started p = true -> started p' = true)) \/
     (j = length (ps_pubs s) /\ started p' = false /\ pb_got p' = false /\ pb_err p' = None /\ pb_done p' = false)) /\
  (forall j p, nth_error (ps_pubs s) j = Some p -> exists p', nth_error (upd (ps_pubs s) i x) j = Some p' /\ pb_id p' = pb_id p /\ (started p = true -> started p' = true))).
  { intros i p x HI E1 E2. split.
    - intros j p' HN. apply nth_upd in HN as [[<- ->]|[NE HN]]; left; eauto.
    - intros j q HN. destruct (Nat.eq_dec i j) as [<-|NE].
      + exists x. split; [apply nth_upd_same; eapply nth_lt; exact HI|]. replace q with p by congruence. auto.
      + exists q. rewrite nth_upd_other by exact NE. auto. }
  pub_cases H; try (split; [intros j p' HN; left; eauto|intros j p' HN; eauto]; fail);
    try (eapply KEEP; [eassumption|reflexivity|unfold started; pproj; try (match goal with HQ : pb_ph _ = _ |- _ => rewrite HQ end); try (intro; assumption); auto; fail]).
  split.
  - intros j p' HN. apply nth_snoc in HN as [HN|[-> ->]]; [left; eauto|right; auto].
  - intros j q HN. exists q. split; [apply nth_snoc_old, HN|auto].
Qed.

Lemma log_grows a s s' : publish_step a s = Some s' -> exists l, ps_log s' = l ++ ps_log s /\ length l <= 1.
Proof. intro H. pub_cases H; try (exists []; split; [reflexivity|cbn; lia]); try (eexists [_]; split; [reflexivity|cbn; lia]). Qed.

Lemma incl_accepted i l l' : incl l l' -> accepted i l -> accepted i l'.
Proof. intros H (id & r & H1 & H2). exists id, r. auto. Qed.
Lemma incl_rejected i r l l' : incl l l' -> rejected i r l -> rejected i r l'.
Proof. intros H (id & H1 & H2). exists id. auto. Qed.
Lemma incl_outcome i r l l' : incl l l' -> outcome_ok i r l -> outcome_ok i r l'.
Proof. intros H. destruct r; cbn [outcome_ok]; [|apply incl_rejected, H|apply H|auto]. intros [Q|[Q|Q]]; eauto using incl_accepted. Qed.

Lemma pub_inv_step a s s' : PInv s -> publish_step a s = Some s' -> PInv s'.
Proof.
  intros I H. pose proof (pub_fields a s s' H) as [F1 F2].
  assert (INC : incl (ps_log s) (ps_log s')). { destruct (log_grows _ _ _ H) as (l & -> & _). apply incl_appr, incl_refl. }
  assert (START : forall i id, In (NStart i id) (ps_log s') <-> exists p, nth_error (ps_pubs s') i = Some p /\ pb_id p = id /\ started p = true).
  { intros j id. split.
    - intro Q.
      assert (OLD : In (NStart j id) (ps_log s) -> exists p, nth_error (ps_pubs s') j = Some p /\ pb_id p = id /\ started p = true).
      { intro O. apply (pi_start s I) in O as (p & HN & HI & HS). destruct (F2 _ _ HN) as (p' & HN' & HI' & HS'). exists p'. rewrite HI'. auto. }
      clear F1 F2 INC. pub_cases H; cbn [In] in Q; try (apply OLD; exact Q); (destruct Q as [Q|Q]; [|apply OLD; exact Q]); try discriminate Q.
      injection Q as <- <-. eexists. split; [apply nth_upd_same; eapply nth_lt; eassumption|]. split; reflexivity.
    - intros (p & HN & HI & HS).
      assert (OLD : (exists p0, nth_error (ps_pubs s) j = Some p0 /\ pb_id p0 = id /\ started p0 = true) -> In (NStart j id) (ps_log s')).
      { intro O. apply INC. apply (pi_start s I). exact O. }
      clear F1 F2 INC. pub_cases H; try (apply OLD; eauto; fail); unfold started in *;
        try (apply nth_upd in HN as [[<- ->]|[NE HN]]; [|apply OLD; eauto; fail]; pproj; try (apply OLD; eexists; split; [eassumption|]; split; [exact HI|]; try (match goal with HQ : pb_ph _ = _ |- _ => rewrite HQ end); auto; fail)).
      + apply nth_snoc in HN as [HN|[-> ->]]; [apply OLD; eauto|discriminate].
      + left. congruence. }
  constructor.
  - (* order *) pose proof (pi_order s I) as O. clear F1 F2 INC START. pub_cases H; try exact O; (split; [|exact O]); cbn [ok_pobs]; try exact Logic.I.
    + intros id Q. apply (pi_start s I) in Q as (q & HN & _ & HS). unfold started in HS. replace q with p in HS by congruence. rewrite Heqp0 in HS. discriminate.
    + split.
      * pose proof (pi_ret s I _ _ Heqo) as R. rewrite Heqp0 in R. exact R.
      * intros r' Q. apply (pi_once s I) in Q as (q & HN & HQ). congruence.
    + apply (pi_map s I). assumption.
  - exact START.
  - (* map *) intros k j Q. clear F1 F2 START. pose proof (pi_map s I) as M. pub_cases H; try (apply INC, M, Q); try (apply M, Q).
    + unfold map_store in Q. cbn [map_find] in Q. destruct (seqb (pb_id p) k) eqn:QK.
      * injection Q as <-. apply seqb_eq in QK. subst k. left. reflexivity.
      * apply INC. apply M. eapply map_remove_find. exact Q.
    + apply INC. apply M. eapply map_remove_find. exact Q.
  - (* got *) intros j q HN HD. pose proof (pi_got s I) as G. pose proof (pi_cb s I) as C.
    assert (OLD : forall p, nth_error (ps_pubs s) j = Some p -> pb_done p = true -> (pb_got p = true -> pb_got q = true) -> (pb_err q = None -> pb_err p = None) ->
      In (NExpire j) (ps_log s') \/ (pb_got q = true /\ (pb_err q = None -> accepted j (ps_log s')))).
    { intros p HP HDP HG HE. destruct (G _ _ HP HDP) as [X|[X Y]]; [left; apply INC, X|right]. split; [auto|]. intro Z. eapply incl_accepted; [exact INC|]. auto. }
    clear F1 F2 START. pub_cases H; try (apply (OLD q); auto; fail);
      try (apply nth_upd in HN as [[<- ->]|[NE HN]]; [|apply (OLD q); auto; fail]; pproj; try (eapply OLD; [eassumption|assumption|auto|auto]; fail)).
    + apply nth_snoc in HN as [HN|[-> ->]]; [apply (OLD q); auto|discriminate].
    + eapply OLD; [eassumption|assumption|auto|]. destruct ok; [auto|discriminate].
    + right. try rewrite Heqo in C. destruct C as (p0 & HN & HG & HA). replace p0 with p in * by congruence. auto.
    + left. left. reflexivity.
  - (* err *) intros j q r HN HE. pose proof (pi_err s I) as ER. pose proof (pi_cb s I) as C.
    assert (OLD : forall p, nth_error (ps_pubs s) j = Some p -> pb_err p = Some r -> rejected j r (ps_log s')).
    { intros p HP HEP. eapply incl_rejected; [exact INC|]. eauto. }
    clear F1 F2 START. pub_cases H; try (apply (OLD q); auto; fail);
      try (apply nth_upd in HN as [[<- ->]|[NE HN]]; [|apply (OLD q); auto; fail]; pproj; try (eapply OLD; [eassumption|exact HE]; fail)).
    + apply nth_snoc in HN as [HN|[-> ->]]; [apply (OLD q); auto|discriminate].
    + destruct ok; [eapply OLD; [eassumption|exact HE]|]. injection HE as <-. try rewrite Heqo in C. destruct C as [(id & C1 & C2) _]. exists id. auto.
  - (* lost *) clear F1 F2 START. pose proof (pi_lost s I) as L. intro Q. pub_cases H; try (apply INC, L, Q); try (apply L, Q). left. reflexivity.
  - (* cb *) pose proof (pi_cb s I) as C. clear START.
    assert (KEEP : forall i, (exists p, nth_error (ps_pubs s) i = Some p /\ pb_got p = true) -> (forall p, nth_error (ps_pubs s) i = Some p -> pb_got p = true -> forall p', nth_error (ps_pubs s') i = Some p' -> pb_got p' = true) -> exists p, nth_error (ps_pubs s') i = Some p /\ pb_got p = true).
    { intros i (p & HN & HG) K. destruct (F2 _ _ HN) as (p' & HN' & _). exists p'. split; [exact HN'|]. eauto. }
    assert (GOT : forall i p, nth_error (ps_pubs s) i = Some p -> forall p', nth_error (ps_pubs s') i = Some p' -> (pb_got p = true -> pb_got p' = true) /\ (pb_err p' = None -> pb_err p = None)).
    { intros i0 p0 HN p1 HN'. clear F1 F2 KEEP INC C. pub_cases H; 
        try (replace p1 with p0 in * by congruence; auto; fail);
        try (apply nth_upd in HN' as [[<- ->]|[NE HN']]; [|replace p1 with p0 in * by congruence; auto; fail]; pproj; 
             match goal with HX : nth_error (ps_pubs s) _ = Some ?p |- _ => assert_fails (constr_eq p p0); replace p0 with p in * by congruence end; auto; fail).
      - rewrite nth_error_app1 in HN' by (eapply nth_lt; exact HN). replace p1 with p0 in * by congruence. auto.
      - apply nth_upd in HN' as [[<- ->]|[NE HN']]; [|replace p1 with p0 in * by congruence; auto].
        pproj. replace p0 with p in * by congruence. split; [auto|]. destruct ok; [auto|discriminate]. }
    assert (STAY : ps_cb s' = ps_cb s -> match ps_cb s' with
          | Some (CGot i ok r) => exists id, In (NStart i id) (ps_log s') /\ In (NAnswer i id ok r) (ps_log s')
          | Some (CErr i ok r) => (exists id, In (NStart i id) (ps_log s') /\ In (NAnswer i id ok r) (ps_log s')) /\ (exists p, nth_error (ps_pubs s') i = Some p /\ pb_got p = true)
          | Some (CCancel i) => exists p, nth_error (ps_pubs s') i = Some p /\ pb_got p = true /\ (pb_err p = None -> accepted i (ps_log s'))
          | None => True end).
    { intros ->. destruct (ps_cb s) as [[i ok r|i ok r|i]|]; [| | |exact Logic.I].
      - destruct C as (id & C1 & C2). exists id. auto.
      - destruct C as [(id & C1 & C2) (p & HN & HG)]. split; [exists id; auto|]. destruct (F2 _ _ HN) as (p' & HN' & _). exists p'. split; [exact HN'|]. apply (GOT _ _ HN _ HN'). exact HG.
      - destruct C as (p & HN & HG & HA). destruct (F2 _ _ HN) as (p' & HN' & _). exists p'. split; [exact HN'|]. destruct (GOT _ _ HN _ HN') as [G1 G2].
        split; [auto|]. intro Z. eapply incl_accepted; [exact INC|]. auto. }
    clear F1 F2 KEEP GOT. pub_cases H; try (apply STAY; congruence).
    + exists id. split; [right; apply (pi_map s I); assumption|left; reflexivity].
    + try rewrite Heqo in C. split; [exact C|]. eexists. split; [apply nth_upd_same; eapply nth_lt; eassumption|reflexivity].
    + try rewrite Heqo in C. destruct C as [(id & C1 & C2) (p0 & HN & HG)]. replace p0 with p in * by congruence.
      eexists. split; [apply nth_upd_same; eapply nth_lt; eassumption|]. pproj. split; [exact HG|]. destruct ok; [|discriminate]. intros _. eexists; eexists; split; eassumption.
    + exact Logic.I.
  - (* ret *) intros j q HN. pose proof (pi_ret s I) as R. pose proof (pi_got s I) as G. pose proof (pi_err s I) as ER. pose proof (pi_lost s I) as L.
    assert (OLD : forall p, nth_error (ps_pubs s) j = Some p -> pb_ph p = pb_ph q -> match pb_ph q with QDelete r => outcome_ok j r (ps_log s') | _ => True end).
    { intros p HP HPH. specialize (R _ _ HP). rewrite HPH in R. destruct (pb_ph q); auto. eapply incl_outcome; [exact INC|exact R]. }
    clear F1 F2 START. pub_cases H; try (apply (OLD q); auto; fail);
      try (apply nth_upd in HN as [[<- ->]|[NE HN]]; [|apply (OLD q); auto; fail]; pproj; try (eapply OLD; [eassumption|pproj; auto; fail]); try exact Logic.I).
    + apply nth_snoc in HN as [HN|[-> ->]]; [apply (OLD q); auto|exact Logic.I].
    + unfold verdict. destruct (pb_err p) eqn:EE; cbn [outcome_ok]; eauto.
    + unfold verdict. destruct (pb_got p) eqn:EG.
      * destruct (pb_err p) eqn:EE; cbn [outcome_ok]; [eauto|]. destruct (G _ _ Heqo) as [X|[_ X]]; auto.
      * cbn [outcome_ok]. destruct (G _ _ Heqo) as [X|[X _]]; [assumption|exact X|congruence].
  - (* once *) intros j r Q. pose proof (pi_once s I) as ON.
    assert (OLD : In (NReturn j r) (ps_log s) -> (forall p, nth_error (ps_pubs s) j = Some p -> pb_ph p = QEnd r -> exists p', nth_error (ps_pubs s') j = Some p' /\ pb_ph p' = QEnd r) -> exists p, nth_error (ps_pubs s') j = Some p /\ pb_ph p = QEnd r).
    { intros O K. apply ON in O as (p & HN & HP). eauto. }
    clear F1 F2 START. pub_cases H; cbn [In] in Q; try (destruct Q as [Q|Q]; [try discriminate Q|]); try (apply OLD; [exact Q|]);
      try (intros q HN HP; eauto; fail);
      try (intros q HN HP; match goal with |- context [upd _ ?i _] => destruct (Nat.eq_dec i j) as [<-|NE]; [try congruence|exists q; rewrite nth_upd_other by exact NE; auto; fail] end);
      try (eexists; split; [apply nth_upd_same; eapply nth_lt; eassumption|pproj; congruence]).
    + intros q HN HP. exists q. split; [apply nth_snoc_old, HN|exact HP].
    + injection Q as <- <-. eexists; split; [apply nth_upd_same; eapply nth_lt; eassumption|pproj; congruence].
Qed.

Definition pub_reachable (s : pstate) : Prop := reaches publish_step publish_init s.
Lemma pub_inv s : pub_reachable s -> PInv s.
Proof.
  apply (invariant publish_step PInv); [|intros a s1 s2 I H; eapply pub_inv_step; eassumption].
  constructor; cbn; try tauto; try discriminate; try (intros i p HN; destruct i; discriminate); try (intros i p r HN; destruct i; discriminate).
  intros i id. split; [contradiction|]. intros (p & HN & _). destruct i; discriminate.
Qed.

(** ** Close *)
Definition in_close (p : cphase) : bool := match p with XLock | XEnd _ => false | _ => true end.
Definition won (p : cphase) : bool :=
  match p with XConn | XCall | XUnlock CClosed | XUnlock CNotConnected | XEnd CClosed | XEnd CNotConnected => true | _ => false end.
Definition did_close (p : cphase) : bool := match p with XUnlock CClosed | XEnd CClosed => true | _ => false end.
Record CInv (s : cstate) : Prop := mkCI {
  ci_mutex : forall i, cs_mutex s = Some i <-> exists p, nth_error (cs_closers s) i = Some p /\ in_close p = true;
  ci_open : forall i p, nth_error (cs_closers s) i = Some p -> p = XCancel \/ p = XForget -> cs_cancel s = true;
  ci_won : cnt won (cs_closers s) = if cs_cancel s then 0 else 1;
  ci_closes : cs_closes s = cnt did_close (cs_closers s);
  ci_forget : forall i p, nth_error (cs_closers s) i = Some p -> p = XForget -> cs_done s = true;
  ci_done : cs_cancel s = false -> cs_done s = true;
  ci_conn : cs_conn s = match cs_writer s with WRun | WNil => true | _ => false end;
  ci_wdone : cs_writer s <> WRun -> cs_done s = true;
  ci_range : match cs_writer s with
             | WRange k n => k <= n /\ n <= length (cs_subs s) /\ (forall j, nth_error (cs_subs s) j = Some VFired -> k <= j /\ j < n)
             | WEnd => forall j, nth_error (cs_subs s) j <> Some VFired
             | _ => True
             end
}.

Ltac cproj := cbn [cs_closers cs_mutex cs_cancel cs_done cs_conn cs_closes cs_writer cs_subs cs_panic set_writer] in *.
Ltac close_cases H :=
  unfold close_step in H;
  match type of H with context [if cs_panic ?s then _ else _] => destruct (cs_panic s) eqn:?HP; [discriminate H|] end;
  match type of H with context [match ?a with ZClose => _ | _ => _ end] => destruct a as [| |?i| | |?j ?lost] end;
  repeat match type of H with
  | (if ?b then _ else _) = _ => destruct b eqn:?
  | match ?o with Some _ => _ | None => _ end = _ => destruct o eqn:?
  | match ?w with WRun => _ | _ => _ end = _ => destruct w eqn:?
  | closer_step _ ?p _ = _ => unfold closer_step in H; destruct p; cbv zeta in H
  | writer_step _ = _ => unfold writer_step in H
  | vsub_step _ ?v _ _ = _ => unfold vsub_step in H; destruct v
  | None = Some _ => discriminate H
  end; try discriminate H; injection H as <-; cproj.

Lemma upd_iff {X} (P : X -> bool) (l : list X) i x y : nth_error l i = Some y -> P x = P y ->
  forall j, (exists p, nth_error (upd l i x) j = Some p /\ P p = true) <-> (exists p, nth_error l j = Some p /\ P p = true).
Proof.
  intros HI HP j. split; intros (p & HN & HL).
  - apply nth_upd in HN as [[<- ->]|[NE HN]]; [|eauto]. exists y. split; [exact HI|congruence].
  - destruct (Nat.eq_dec i j) as [<-|NE].
    + exists x. split; [apply nth_upd_same; eapply nth_lt; exact HI|congruence].
    + exists p. rewrite nth_upd_other by exact NE. auto.
Qed.

Lemma close_inv_step a s s' : CInv s -> close_step a s = Some s' -> CInv s'.
Proof.
  intros I H. constructor.
  - (* mutex *) pose proof (ci_mutex s I) as M.
    assert (KEEP : forall i p x, nth_error (cs_closers s) i = Some p -> in_close x = in_close p ->
       forall j, cs_mutex s = Some j <-> exists q, nth_error (upd (cs_closers s) i x) j = Some q /\ in_close q = true).
    { intros i p x HI HX j. rewrite (M j). symmetry. apply (upd_iff in_close _ _ _ _ HI HX). }
    revert M KEEP. close_cases H; intros M KEEP; try exact M; try (eapply KEEP; [eassumption|reflexivity]).
    + intro j. rewrite (M j). split; intros (q & HN & HL); [exists q; split; [apply nth_snoc_old, HN|exact HL]|].
      apply nth_snoc in HN as [HN|[-> ->]]; [eauto|discriminate].
    + intro j. split.
      * intro Q. injection Q as <-. eexists. split; [apply nth_upd_same; eapply nth_lt; eassumption|reflexivity].
      * intros (q & HN & HL). apply nth_upd in HN as [[<- ->]|[NE HN]]; [reflexivity|]. discriminate (proj2 (M j) (ex_intro _ q (conj HN HL))).
    + eapply KEEP; [eassumption|]. destruct (cs_cancel s); reflexivity.
    + eapply KEEP; [eassumption|]. destruct (cs_conn s); reflexivity.
    + intro j. split; [discriminate|]. intros (q & HN & HL). apply nth_upd in HN as [[<- ->]|[NE HN]]; [discriminate|].
      assert (cs_mutex s = Some j) by (apply M; eauto). assert (cs_mutex s = Some i) by (apply M; eauto). congruence.
  - (* open *) pose proof (ci_open s I) as O. pose proof (ci_mutex s I) as M. revert O M. close_cases H; intros O M j0 q HN HQ;
      try (eapply O; eassumption);
      try (apply nth_upd in HN as [[<- ->]|[NE HN]]; [|eapply O; eassumption]; try (destruct HQ; discriminate); try (eapply O; [eassumption|solve [auto]])).
    + apply nth_snoc in HN as [HN|[-> ->]]; [eapply O; eassumption|destruct HQ; discriminate].
    + destruct (cs_cancel s); [reflexivity|destruct HQ; discriminate].
    + apply nth_upd in HN as [[<- ->]|[NE HN]]; [destruct HQ; discriminate|]. exfalso.
      assert (cs_mutex s = Some j0) by (apply M; exists q; split; [exact HN|]; destruct HQ; subst; reflexivity).
      assert (cs_mutex s = Some i) by (apply M; eexists; split; [eassumption|reflexivity]). congruence.
    + destruct (cs_conn s); destruct HQ; discriminate.
  - (* won *) pose proof (ci_won s I) as W. pose proof (ci_open s I) as O.
    assert (U : forall i p x, nth_error (cs_closers s) i = Some p -> cnt won (upd (cs_closers s) i x) + (if won p then 1 else 0) = cnt won (cs_closers s) + (if won x then 1 else 0)) by (intros; apply cnt_upd; assumption).
    revert W O U. close_cases H; intros W O U; try exact W; try (rewrite cnt_app; cbn [cnt won]; lia);
      match goal with HX : nth_error (cs_closers _) _ = Some ?p |- context [upd _ _ ?x] => specialize (U _ _ x HX); cbn [won] in U; try (destruct r; lia); try lia end.
    + destruct (cs_cancel s); cbn [won] in U; lia.
    + rewrite (O _ _ Heqo (or_intror eq_refl)) in W. lia.
    + destruct (cs_conn s); cbn [won] in U; lia.
  - (* closes *) pose proof (ci_closes s I) as W.
    assert (U : forall i p x, nth_error (cs_closers s) i = Some p -> cnt did_close (upd (cs_closers s) i x) + (if did_close p then 1 else 0) = cnt did_close (cs_closers s) + (if did_close x then 1 else 0)) by (intros; apply cnt_upd; assumption).
    revert W U. close_cases H; intros W U; try exact W; try (rewrite cnt_app; cbn [cnt did_close]; lia);
      match goal with HX : nth_error (cs_closers _) _ = Some ?p |- context [upd _ _ ?x] => specialize (U _ _ x HX); cbn [did_close] in U; try lia end.
    + destruct (cs_cancel s); cbn [did_close] in U; lia.
    + destruct (cs_conn s); cbn [did_close] in U; lia.
  - (* forget *) pose proof (ci_forget s I) as O. revert O. close_cases H; intros O j0 q HN HQ; subst; try reflexivity; try assumption;
      try (eapply O; [eassumption|reflexivity]);
      try (apply nth_upd in HN as [[<- Q]|[NE HN]]; [|eapply O; [eassumption|reflexivity]]; try discriminate Q).
    + apply nth_snoc in HN as [HN|[-> Q]]; [eapply O; [eassumption|reflexivity]|discriminate].
    + destruct (cs_cancel s); discriminate Q.
    + destruct (cs_conn s); discriminate Q.
  - (* done *) pose proof (ci_done s I) as O. pose proof (ci_forget s I) as F. revert O F. close_cases H; intros O F Q; auto; try (eapply F; [eassumption|reflexivity]).
  - (* conn *) pose proof (ci_conn s I) as O. revert O. close_cases H; intros O; try exact O; try (rewrite O; reflexivity); try reflexivity.
  - (* wdone *) pose proof (ci_wdone s I) as O. revert O. close_cases H; intros O Q; auto; try (apply O; discriminate); try (apply O; congruence).
  - (* range *) pose proof (ci_range s I) as R. pose proof (ci_conn s I) as C.
    assert (KEEP : forall j v x, nth_error (cs_subs s) j = Some v -> x <> VFired -> match cs_writer s with
             | WRange k n => k <= n /\ n <= length (upd (cs_subs s) j x) /\ (forall j0, nth_error (upd (cs_subs s) j x) j0 = Some VFired -> k <= j0 /\ j0 < n)
             | WEnd => forall j0, nth_error (upd (cs_subs s) j x) j0 <> Some VFired
             | _ => True end).
    { intros j v x HJ HX. destruct (cs_writer s); auto.
      - destruct R as (R1 & R2 & R3). rewrite upd_length. repeat split; auto; apply nth_upd in H0 as [[<- Q]|[NE HN]]; try congruence; apply R3; exact HN.
      - intros j0 Q. apply nth_upd in Q as [[<- Q]|[NE Q]]; [congruence|]. exact (R _ Q). }
    revert R C KEEP. close_cases H; intros R C KEEP; try exact R; try exact Logic.I.
    + (* WNil *) split; [lia|]. split; [lia|]. intros j Q. split; [lia|]. eapply nth_lt; exact Q.
    + (* range step *) destruct R as (R1 & R2 & R3). rewrite upd_length. apply Nat.ltb_lt in Heqb. split; [lia|]. split; [exact R2|].
      intros j Q. apply nth_upd in Q as [[<- Q]|[NE Q]]; [destruct v; discriminate|]. specialize (R3 _ Q). lia.
    + (* range end *) destruct R as (R1 & R2 & R3). apply Nat.ltb_ge in Heqb. intros j Q. specialize (R3 _ Q). lia.
    + (* subscribe *) destruct (cs_writer s); auto.
      * destruct R as (R1 & R2 & R3). rewrite app_length. cbn [length]. split; [exact R1|]. split; [lia|]. intros j Q. apply nth_snoc in Q as [Q|[_ Q]]; [auto|discriminate].
      * intros j Q. apply nth_snoc in Q as [Q|[_ Q]]; [exact (R _ Q)|discriminate].
    + eapply KEEP; [eassumption|]. destruct (cs_conn s); discriminate.
    + eapply KEEP; [eassumption|discriminate].
Qed.

Definition close_reachable (s : cstate) : Prop := reaches close_step close_init s.
Lemma close_inv s : close_reachable s -> CInv s.
Proof.
  apply (invariant close_step CInv); [|intros a s1 s2 I H; eapply close_inv_step; eassumption].
  constructor; cbn; try tauto; try discriminate; try reflexivity; try (intros i p HN; destruct i; discriminate).
  intros i. split; [discriminate|]. intros (p & HN & _). destruct i; discriminate.
Qed.

Definition close_internal (a : caction) : Prop := match a with ZCloser _ | ZWriter | ZSub _ _ => True | _ => False end.
Definition close_quiet (s : cstate) : Prop := forall a, close_internal a -> close_step a s = None.

Lemma close_quiet_done s : CInv s -> cs_panic s = false -> close_quiet s -> cs_done s = true ->
  (forall i p, nth_error (cs_closers s) i = Some p -> exists r, p = XEnd r) /\ cs_writer s = WEnd /\
  (forall j v, nth_error (cs_subs s) j = Some v -> v = VEnded \/ v = VGivenUp).
Proof.
  intros I P Q D.
  assert (WE : cs_writer s = WEnd).
  { pose proof (Q ZWriter Logic.I) as S. unfold close_step in S. rewrite P in S. unfold writer_step in S. pose proof (ci_range s I) as R.
    destruct (cs_writer s) as [| |k n|]; [rewrite D in S; discriminate|discriminate| |reflexivity].
    destruct R as (R1 & R2 & _). destruct (Nat.ltb k n) eqn:L; [|discriminate]. apply Nat.ltb_lt in L.
    destruct (nth_error (cs_subs s) k) eqn:NE; [discriminate|]. apply nth_error_None in NE. lia. }
  assert (CL : forall i p, nth_error (cs_closers s) i = Some p -> (exists r, p = XEnd r) \/ (p = XLock /\ cs_mutex s <> None)).
  { intros i p HN. pose proof (Q (ZCloser i) Logic.I) as S. unfold close_step in S. rewrite P, HN in S. unfold closer_step in S.
    destruct p; try discriminate; eauto.
    - right. split; [reflexivity|]. destruct (cs_mutex s); [discriminate|discriminate].
    - destruct (cs_conn s); discriminate. }
  assert (MX : cs_mutex s = None).
  { destruct (cs_mutex s) as [i|] eqn:M; [|reflexivity]. exfalso. apply (ci_mutex s I) in M as (p & HN & HP).
    destruct (CL _ _ HN) as [[r ->]|[-> _]]; discriminate. }
  split; [|split; [exact WE|]].
  - intros i p HN. destruct (CL _ _ HN) as [R|[_ R]]; [exact R|congruence].
  - intros j v HN. pose proof (Q (ZSub j true) Logic.I) as S. unfold close_step in S. rewrite P, HN in S. unfold vsub_step in S.
    pose proof (ci_range s I) as R. rewrite WE in R. destruct v; auto.
    + discriminate.
    + rewrite D in S. discriminate.
    + destruct (R _ HN).
Qed.

(** Closing always runs to an end. *)
Definition c_weight (p : cphase) : nat := match p with XLock => 8 | XCheck => 7 | XCancel => 6 | XForget => 5 | XConn => 4 | XCall => 3 | XUnlock _ => 2 | XEnd _ => 0 end.
Definition v_weight (v : vphase) : nat := match v with VPrepared => 3 | VFiring => 2 | VFired => 1 | VGivenUp => 1 | VEnded => 0 end.
Definition w_weight (w : wphase) (len : nat) : nat := match w with WRun => len + 4 | WNil => len + 3 | WRange k n => 1 + (n - k) | WEnd => 0 end.
Definition close_weight (s : cstate) : nat :=
  c_total c_weight (cs_closers s) + c_total v_weight (cs_subs s) + w_weight (cs_writer s) (length (cs_subs s)) + (if cs_panic s then 0 else 1).
Lemma close_decreases a s s' : close_internal a -> close_step a s = Some s' -> close_weight s' < close_weight s.
Proof.
  intros IA H. unfold close_weight.
  pose proof (fun i p x => c_total_upd c_weight (cs_closers s) i x p) as U. pose proof (fun i p x => c_total_upd v_weight (cs_subs s) i x p) as V.
  revert U V. unfold close_step in H. destruct (cs_panic s) eqn:HP; [discriminate|]. destruct a as [| |i| | |j lost]; try contradiction; clear IA.
  - destruct (nth_error (cs_closers s) i) as [p|] eqn:HN; [|discriminate]. unfold closer_step in H. cbv zeta in H.
    destruct p; repeat match type of H with
      | match ?o with Some _ => _ | None => _ end = _ => destruct o
      | (if ?b then _ else _) = _ => destruct b end; try discriminate; injection H as <-; cproj; intros U V;
      match goal with |- context [upd _ _ ?x] => specialize (U _ _ x HN); cbn [c_weight] in U; rewrite ?HP; try lia end.
    + destruct (cs_cancel s); cbn [c_weight] in U; lia.
    + destruct (cs_conn s); cbn [c_weight] in U; lia.
  - unfold writer_step in H. destruct (cs_writer s) as [| |k n|]; try discriminate.
    + destruct (cs_done s); [|discriminate]. injection H as <-. cproj. rewrite HP. cbn [w_weight]. intros _ _. lia.
    + injection H as <-. cproj. rewrite HP. cbn [w_weight]. intros _ _. lia.
    + destruct (Nat.ltb k n) eqn:L.
      * destruct (nth_error (cs_subs s) k) as [v|] eqn:HN; [|discriminate]. injection H as <-. cproj. rewrite HP. cbn [w_weight]. intros _ V.
        specialize (V _ _ (sub_ends v) HN). apply Nat.ltb_lt in L. destruct v; cbn [v_weight sub_ends] in *; lia.
      * injection H as <-. cproj. rewrite HP. cbn [w_weight]. intros _ _. lia.
  - destruct (nth_error (cs_subs s) j) as [v|] eqn:HN; [|discriminate]. unfold vsub_step in H. destruct v; try discriminate.
    + injection H as <-. cproj. rewrite HP, upd_length. intros _ V. specialize (V _ _ (if cs_conn s then VFiring else VGivenUp) HN). destruct (cs_conn s); cbn [v_weight] in V; lia.
    + destruct lost.
      * destruct (cs_done s); [|discriminate]. injection H as <-. cproj. rewrite HP, upd_length. intros _ V. specialize (V _ _ VEnded HN). cbn [v_weight] in V. lia.
      * destruct (cs_writer s) eqn:W; try discriminate. injection H as <-. cproj. rewrite HP, upd_length, ?W. intros _ V. specialize (V _ _ VFired HN). cbn [v_weight] in V. lia.
Qed.

(** ** Subscription ids *)
Lemma is_digit_not_colon c : is_digit c = true -> ceqb c ":"%char = false.
Proof.
  assert (G : forall c, (if is_digit c then negb (ceqb c ":"%char) else true) = true) by (apply bytes_forallb; vm_compute; reflexivity).
  intro H. specialize (G c). rewrite H in G. destruct (ceqb c ":"%char); [discriminate|reflexivity].
Qed.
Lemma cut_colon_app a r : forallb (fun c => negb (ceqb c ":"%char)) a = true -> cut_colon (a ++ ":"%char :: r) = Some a.
Proof.
  induction a as [|c a IH]; intro H; [reflexivity|]. cbn [forallb] in H. apply andb_true_iff in H as [H1 H2]. cbn [app cut_colon].
  destruct (ceqb c ":"%char); [discriminate|]. rewrite (IH H2). reflexivity.
Qed.
Lemma dec_Z_no_colon z : forallb (fun c => negb (ceqb c ":"%char)) (dec_Z z) = true.
Proof.
  destruct (dec_Z_shape z) as (c & t & -> & H1 & H2). cbn [forallb]. apply andb_true_iff. split.
  - apply orb_true_iff in H1 as [H1|H1]; [rewrite (is_digit_not_colon _ H1); reflexivity|]. apply Ascii.eqb_eq in H1. subst. reflexivity.
  - rewrite forallb_forall in *. intros x Hx. rewrite (is_digit_not_colon x); [reflexivity|auto].
Qed.
Lemma sub_id_serial k label : (min_int64 <= k <= max_int64)%Z -> sub_id_to_serial (sub_id k label) = k.
Proof.
  intro H. unfold sub_id_to_serial, sub_id. rewrite cut_colon_app by apply dec_Z_no_colon. unfold parse_int_value. rewrite parse_int_dec_Z by exact H. reflexivity.
Qed.
Lemma sub_id_inj k l k' l' : sub_id k l = sub_id k' l' -> k = k' /\ l = l'.
Proof.
  intro H. unfold sub_id in H. pose proof (cut_colon_app (dec_Z k) l (dec_Z_no_colon k)) as H1.
  pose proof (cut_colon_app (dec_Z k') l' (dec_Z_no_colon k')) as H2. rewrite H, H2 in H1. injection H1 as H1. apply dec_Z_inj in H1. subst k'. split; [reflexivity|].
  apply app_inv_head in H. injection H as H. exact H.
Qed.
Lemma prepare_all_snoc ls l : prepare_all (ls ++ [l]) = prepare l (prepare_all ls).
Proof. unfold prepare_all. rewrite fold_left_app. reflexivity. Qed.
Lemma prepare_all_spec ls : fst (prepare_all ls) = Z.of_nat (length ls) /\
  (forall id, In id (snd (prepare_all ls)) <-> exists k l, nth_error ls k = Some l /\ id = sub_id (Z.of_nat (S k)) l) /\
  NoDup (snd (prepare_all ls)) /\ length (snd (prepare_all ls)) = length ls.
Proof.
  induction ls as [|l ls IH] using rev_ind.
  - cbn. split; [reflexivity|]. split; [|split; [constructor|reflexivity]]. intro id. split; [tauto|]. intros (k & x & H & _). destruct k; discriminate.
  - rewrite prepare_all_snoc. destruct (prepare_all ls) as [n ids]. cbn [fst snd] in IH. destruct IH as (H1 & H2 & H3 & H4). cbn [prepare fst snd].
    assert (EQ : (n + 1)%Z = Z.of_nat (S (length ls))) by lia. rewrite app_length. cbn [length]. split; [lia|]. split; [|split].
    + intro id. cbn [In]. rewrite H2, EQ. split.
      * intros [<-|(k & x & HN & ->)].
        -- exists (length ls), l. split; [|reflexivity]. rewrite nth_error_app2, Nat.sub_diag by lia. reflexivity.
        -- exists k, x. split; [|reflexivity]. rewrite nth_error_app1; [exact HN|]. apply nth_error_Some. congruence.
      * intros (k & x & HN & ->). destruct (Nat.lt_ge_cases k (length ls)) as [L|L].
        -- right. exists k, x. rewrite nth_error_app1 in HN by exact L. auto.
        -- left. rewrite nth_error_app2 in HN by exact L. destruct (k - length ls) as [|d] eqn:Q; cbn in HN; [|destruct d; discriminate].
           injection HN as ->. replace k with (length ls) by lia. reflexivity.
    + constructor; [|exact H3]. intro Q. apply H2 in Q as (k & x & HN & Q). apply sub_id_inj in Q as [Q _].
      assert (k < length ls) by (apply nth_error_Some; congruence). lia.
    + lia.
Qed.

(** ** The reader *)
Section Reader.
Context (check : event -> outcome bool) (assume_valid : bool) {D : Type} (dup : str -> D -> bool * D).
Notation read := (read_message check assume_valid dup).
Notation rstep := (reader_step check assume_valid dup).

Lemma find_sub_in n l x : find_sub n l = Some x -> In x l /\ r_serial x = n.
Proof.
  induction l as [|y l IH]; cbn [find_sub]; [discriminate|]. destruct (Z.eqb (r_serial y) n) eqn:Q.
  - intro H. injection H as ->. apply Z.eqb_eq in Q. cbn. auto.
  - intro H. apply IH in H as [H1 H2]. cbn. auto.
Qed.
Lemma find_sub_none n l : find_sub n l = None -> forall x, In x l -> r_serial x <> n.
Proof.
  induction l as [|y l IH]; cbn [find_sub]; [intros _ x []|]. destruct (Z.eqb (r_serial y) n) eqn:Q; [discriminate|].
  intros H x [<-|Hx]; [apply Z.eqb_neq; exact Q|auto].
Qed.

Definition effect (found : option rsub) (msg : str) (s s' : reader D) : Prop :=
  (rd_subs s' = rd_subs s \/ exists id, parse_message msg = Ok (EEose id) /\ rd_subs s' = set_eosed (sub_id_to_serial id) (rd_subs s)) /\
  (rd_out s' = rd_out s \/ exists sub e x, parse_message msg = Ok (EEvent sub e) /\ found = Some x /\ sub_match x e = true /\
     (assume_valid = false -> check e = Ok true) /\ rd_out s' = (r_serial x, e) :: rd_out s).

Lemma handle_effect found msg s : effect found msg s (handle check assume_valid found msg s).
Proof.
  unfold handle, effect. destruct (parse_message msg) as [m| |]; try (split; left; reflexivity).
  destruct m as [sub e| | | |id| |id r|id b r|[c|] e]; try (split; left; reflexivity).
  - destruct found as [x|]; [|split; left; reflexivity]. destruct (sub_match x e) eqn:Q; cbn [negb]; [|split; left; reflexivity].
    destruct (negb assume_valid && negb (match check e with Ok b => b | _ => false end)) eqn:V; [split; left; reflexivity|].
    split; [left; reflexivity|]. right. exists sub, e, x. repeat split; auto.
    intros ->. cbn [negb andb] in V. destruct (check e) as [[|]| |]; try discriminate. reflexivity.
  - split; [right; exists id; split; reflexivity|left; reflexivity].
  - destruct (find_sub (sub_id_to_serial id) (rd_subs s)); split; left; reflexivity.
Qed.

Lemma read_effect msg s : (exists id, extract_sub_id msg = Ok id /\ effect (find_sub (sub_id_to_serial id) (rd_subs s)) msg s (read msg s)) \/
  (rd_subs (read msg s) = rd_subs s /\ rd_out (read msg s) = rd_out s).
Proof.
  unfold read_message. destruct (extract_sub_id msg) as [id| |] eqn:E; [|right; split; reflexivity|right; split; reflexivity].
  cbv zeta. destruct (find_sub (sub_id_to_serial id) (rd_subs s)) as [x|] eqn:F.
  2:{ left. exists id. split; [reflexivity|]. rewrite F. apply handle_effect. }
  destruct (r_dups x).
  2:{ left. exists id. split; [reflexivity|]. rewrite F. apply handle_effect. }
  destruct (Nat.ltb (length msg) (10 + length id)); [right; split; reflexivity|].
  destruct (extract_event_id (skipn (10 + length id) msg)) as [eid| |]; try (right; split; reflexivity).
  destruct (dup eid (rd_dup s)) as [b d]. destruct b; [right; split; reflexivity|].
  left. exists id. split; [reflexivity|]. rewrite F.
  match goal with |- effect _ _ _ (handle _ _ _ _ ?s1) => pose proof (handle_effect (Some x) msg s1) as [H1 H2] end. split; [exact H1|exact H2].
Qed.

(** Subscription [x] is in the map after [acts]: added, not deleted since. *)
Definition open_in (acts : list raction) (x : rsub) (since_added : list raction) : Prop :=
  (exists before, acts = before ++ RAdd x :: since_added) /\ ~ In (RDelete (r_serial x)) since_added.
Definition eose_in (n : Z) (acts : list raction) : Prop :=
  exists m id, In (RMsg m) acts /\ parse_message m = Ok (EEose id) /\ sub_id_to_serial id = n.
Definition delivery (acts : list raction) (n : Z) (e : event) : Prop :=
  exists before msg after sub id x since_added,
    acts = before ++ RMsg msg :: after /\
    parse_message msg = Ok (EEvent sub e) /\ extract_sub_id msg = Ok id /\ sub_id_to_serial id = n /\
    open_in before x since_added /\ r_serial x = n /\
    (filters_match (r_filters x) (Some e) = true \/
     eose_in n since_added /\ filters_match_ignoring_time (r_filters x) (Some e) = true) /\
    (assume_valid = false -> check e = Ok true).

Lemma delivery_snoc acts a n e : delivery acts n e -> delivery (acts ++ [a]) n e.
Proof.
  intros (b & m & af & sub & id & x & sa & -> & H). exists b, m, (af ++ [a]), sub, id, x, sa. split; [|exact H]. rewrite <- app_assoc. reflexivity.
Qed.

Lemma reader_inv d acts s : exec rstep acts (reader_init d) = Some s ->
  (forall y, In y (rd_subs s) -> exists x sa, open_in acts x sa /\ r_serial y = r_serial x /\ r_filters y = r_filters x /\ r_dups y = r_dups x /\
     (r_eosed y = true -> eose_in (r_serial x) sa)) /\
  (forall n e, In (n, e) (rd_out s) -> delivery acts n e).
Proof.
  revert s. induction acts as [|a acts IH] using rev_ind; intros s H.
  - cbn in H. injection H as <-. cbn. split; intros; contradiction.
  - rewrite exec_app in H. destruct (exec rstep acts (reader_init d)) as [s0|] eqn:E0; [|discriminate].
    cbn [exec] in H. destruct (rstep a s0) as [s1|] eqn:E1; [|discriminate]. injection H as <-.
    destruct (IH s0 eq_refl) as [I1 I2]. clear IH.
    assert (KEEP : forall y, In y (rd_subs s0) -> (forall n, a = RDelete n -> r_serial y <> n) ->
      exists x sa, open_in (acts ++ [a]) x (sa ++ [a]) /\ r_serial y = r_serial x /\ r_filters y = r_filters x /\ r_dups y = r_dups x /\
       (r_eosed y = true -> eose_in (r_serial x) sa)).
    { intros y Hy Hd. destruct (I1 y Hy) as (x & sa & [[b O1] O2] & E2 & E3 & E4 & E5). exists x, sa. split; [|repeat split; assumption].
      split; [exists b; subst acts; rewrite <- app_assoc; reflexivity|]. intro Q. apply in_app_or in Q as [Q|[Q|[]]]; [auto|].
      apply (Hd _ Q). exact E2. }
    assert (MON : forall y sa, (r_eosed y = true -> eose_in (r_serial y) sa) -> r_eosed y = true -> eose_in (r_serial y) (sa ++ [a])).
    { intros y sa Q HE. destruct (Q HE) as (m & id & M1 & M2). exists m, id. split; [apply in_or_app; auto|exact M2]. }
    unfold reader_step in E1. destruct (rd_crashed s0); [discriminate|]. destruct a as [msg|x|n].
    + injection E1 as <-. destruct (read_effect msg s0) as [(id & EX & [ES EO])|[ES EO]].
      * split.
        -- destruct ES as [ES|(eid & EP & ES)]; rewrite ES.
           ++ intros y Hy. destruct (KEEP y Hy) as (x & sa & O & E2 & E3 & E4 & E5); [discriminate|]. exists x, (sa ++ [RMsg msg]).
              repeat split; try assumption; try (apply O). rewrite <- E2 in *. apply MON. exact E5.
           ++ intros y Hy. unfold set_eosed in Hy. apply in_map_iff in Hy as (y0 & <- & Hy0).
              destruct (KEEP y0 Hy0) as (x & sa & O & E2 & E3 & E4 & E5); [discriminate|]. exists x, (sa ++ [RMsg msg]).
              destruct (Z.eqb (r_serial y0) (sub_id_to_serial eid)) eqn:QE; cbn [r_serial r_filters r_dups r_eosed].
              ** split; [exact O|]. repeat split; try assumption. intros _. exists msg, eid. split; [apply in_or_app; right; left; reflexivity|]. split; [exact EP|].
                 apply Z.eqb_eq in QE. congruence.
              ** split; [exact O|]. repeat split; try assumption. rewrite <- E2 in *. apply MON. exact E5.
        -- intros k e He. destruct EO as [EO|(sub & e' & x & EP & EF & EM & EC & EO)]; rewrite EO in He; [apply delivery_snoc, I2, He|].
           destruct He as [He|He]; [|apply delivery_snoc, I2, He]. injection He as <- <-.
           apply find_sub_in in EF as [EF1 EF2]. destruct (I1 x EF1) as (x0 & sa & O & E2 & E3 & E4 & E5).
           exists acts, msg, [], sub, id, x0, sa. rewrite <- E2, EF2. repeat split; auto; try apply O.
           unfold sub_match in EM. rewrite E3 in EM. destruct (r_eosed x); [right|left; exact EM]. split; [|exact EM].
           rewrite <- EF2, E2. apply E5. reflexivity.
      * rewrite ES, EO. split.
        -- intros y Hy. destruct (KEEP y Hy) as (x & sa & O & E2 & E3 & E4 & E5); [discriminate|]. exists x, (sa ++ [RMsg msg]).
           repeat split; try assumption; try (apply O). rewrite <- E2 in *. apply MON. exact E5.
        -- intros k e He. apply delivery_snoc, I2, He.
    + destruct (r_eosed x) eqn:EE; [discriminate|]. injection E1 as <-. cbn [rd_subs rd_out]. split; [|intros k e He; apply delivery_snoc, I2, He].
      intros y [<-|Hy].
      * exists x, []. split; [split; [exists acts; reflexivity|intros []]|]. repeat split. congruence.
      * destruct (KEEP y Hy) as (x0 & sa & O & E2 & E3 & E4 & E5); [discriminate|]. exists x0, (sa ++ [RAdd x]).
        repeat split; try assumption; try (apply O). rewrite <- E2 in *. apply MON. exact E5.
    + injection E1 as <-. cbn [rd_subs rd_out]. split; [|intros k e He; apply delivery_snoc, I2, He].
      intros y Hy. apply filter_In in Hy as [Hy NE].
      destruct (KEEP y Hy) as (x0 & sa & O & E2 & E3 & E4 & E5).
      { intros n0 Q0. injection Q0 as <-. apply negb_true_iff, Z.eqb_neq in NE. exact NE. }
      exists x0, (sa ++ [RDelete n]). repeat split; try assumption; try (apply O). rewrite <- E2 in *. apply MON. exact E5.
Qed.
End Reader.
