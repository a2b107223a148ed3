(** Invariants of the shared web-of-trust loading. *)
From Verif Require Import Base Machine WotModel PoolProofs.
Import ListNotations.

Ltac wproj := cbn [w_callers w_calls w_slots w_log w_id w_waiters w_st] in *.
Ltac wot_cases H :=
  unfold wot_step in H; cbv zeta beta in H;
  match type of H with context [match ?a with WNew _ => _ | _ => _ end] => destruct a as [?p|?c|?c|?c ?r|?c|?c|?c] end;
  repeat match type of H with
  | (if ?b then _ else _) = _ => destruct b eqn:?Heqb
  | match ?o with Some _ => _ | None => _ end = _ => lazymatch o with
      | nth_error (w_callers _) _ => let E := fresh "HN" in destruct o as [[? ?]|] eqn:E
      | nth_error (w_calls _) _ => let E := fresh "HW" in destruct o as [?|] eqn:E
      | _ => let E := fresh "HSL" in destruct o as [?|] eqn:E end
  | match ?w with WOpen => _ | _ => _ end = _ => let E := fresh "HST" in destruct w as [|? ?|] eqn:E
  | match ?w with CStart => _ | _ => _ end = _ => destruct w
  | match ?w with nil => _ | _ => _ end = _ => destruct w
  | None = Some _ => discriminate H
  end; subst; try discriminate H; injection H as <-; wproj.

Section Wot.
Context {P R : Type} (shid : P -> Z).
Notation step := (wot_step P R shid).
Implicit Types (s : wstate P R) (x : wcall R).
Definition is_done x : bool := match w_st x with WDone => true | _ => false end.
(** The waiters a call has still to send to. *)
Definition owed x : list nat := match w_st x with WOpen => w_waiters x | WSending _ todo => todo | WDone => [] end.
Definition refers (ph : wphase R) (w : nat) : Prop := ph = CGot w \/ ph = CWaiting w \/ ph = CAwait w \/ ph = COwner w.

Record WInv s : Prop := mkWI {
  wi_ref : forall c p ph w, nth_error (w_callers s) c = Some (p, ph) -> refers ph w -> exists x, nth_error (w_calls s) w = Some x;
  wi_wait : forall c p w x, nth_error (w_callers s) c = Some (p, CWaiting w) -> nth_error (w_calls s) w = Some x -> w_id x = shid p /\ (In c (owed x) \/ is_done x = true);
  wi_owner : forall c p w x, nth_error (w_callers s) c = Some (p, COwner w) -> nth_error (w_calls s) w = Some x -> w_id x = shid p /\ is_done x = false;
  wi_slot : forall i w, w_slots s i = Some w -> exists x, nth_error (w_calls s) w = Some x /\ is_done x = false /\ slot_of (w_id x) = i;
  wi_open : forall w x, nth_error (w_calls s) w = Some x -> is_done x = false -> w_slots s (slot_of (w_id x)) = Some w;
  wi_has : forall w x, nth_error (w_calls s) w = Some x -> is_done x = false -> exists c p, nth_error (w_callers s) c = Some (p, COwner w);
  wi_one : forall c d p q w, nth_error (w_callers s) c = Some (p, COwner w) -> nth_error (w_callers s) d = Some (q, COwner w) -> c = d;
  wi_owed : forall w x, nth_error (w_calls s) w = Some x -> NoDup (owed x) /\ forall d, In d (owed x) -> exists q, nth_error (w_callers s) d = Some (q, CWaiting w);
  wi_sending : forall w x r todo, nth_error (w_calls s) w = Some x -> w_st x = WSending r todo -> exists c p ph, In (OComputed c r) (w_log s) /\ nth_error (w_callers s) c = Some (p, ph) /\ shid p = w_id x;
  wi_log : forall d r, In (OReturned d r) (w_log s) -> exists q, nth_error (w_callers s) d = Some (q, CReturned r) /\ exists c p ph, In (OComputed c r) (w_log s) /\ nth_error (w_callers s) c = Some (p, ph) /\ shid p = shid q;
  wi_ret : forall d q r, nth_error (w_callers s) d = Some (q, CReturned r) -> In (OReturned d r) (w_log s)
}.
Lemma nth_fresh {X} (l : list X) : nth_error l (length l) = None. Proof. apply nth_error_None. lia. Qed.

(** A caller keeps its key. *)
Lemma key_kept a s s' c p ph : step a s = Some s' -> nth_error (w_callers s) c = Some (p, ph) -> exists ph', nth_error (w_callers s') c = Some (p, ph').
Proof.
  assert (U : forall d q ph0 ph1, nth_error (w_callers s) d = Some (q, ph0) -> nth_error (w_callers s) c = Some (p, ph) -> exists ph', nth_error (upd (w_callers s) d (q, ph1)) c = Some (p, ph')).
  { intros d q ph0 ph1 H1 H2. destruct (Nat.eq_dec d c) as [->|N]; [|rewrite nth_upd_other by exact N; eauto]. rewrite nth_upd_same by exact (nth_lt _ _ _ H1). eexists. f_equal. f_equal. congruence. }
  intros H H2. wot_cases H; eauto. exists ph. apply nth_snoc_old. exact H2.
Qed.
(** Log entries stay. *)
Lemma log_kept a s s' o : step a s = Some s' -> In o (w_log s) -> In o (w_log s').
Proof. intros H HI. wot_cases H; auto; right; exact HI. Qed.
Lemma computed_kept a s s' c r p ph z : step a s = Some s' -> In (OComputed c r) (w_log s) -> nth_error (w_callers s) c = Some (p, ph) -> shid p = z ->
  exists c p ph, In (OComputed c r) (w_log s') /\ nth_error (w_callers s') c = Some (p, ph) /\ shid p = z.
Proof. intros H H1 H2 H3. destruct (key_kept _ _ _ _ _ _ H H2) as [ph' K]. exists c, p, ph'. split; [eapply log_kept; eassumption|auto]. Qed.

Lemma in_owed_upd s w x y d : nth_error (w_calls s) w = Some x -> nth_error (upd (w_calls s) w y) d = nth_error (w_calls s) d \/ (d = w /\ nth_error (upd (w_calls s) w y) d = Some y).
Proof. intro H. destruct (Nat.eq_dec w d) as [->|N]; [right; split; [reflexivity|apply nth_upd_same; exact (nth_lt _ _ _ H)]|left; apply nth_upd_other; exact N]. Qed.

Lemma wot_inv_step a s s' : WInv s -> step a s = Some s' -> WInv s'.
Proof.
  intros I H. pose proof (fun c p ph => key_kept a s s' c p ph H) as KK. pose proof (fun c r p ph z => computed_kept a s s' c r p ph z H) as CK.
  destruct I as [I1 I2 I3 I4 I5 I6 I7 I8 I9 I10 I11].
  (* the ways a caller or a call of the new state was there before *)
  constructor.
  - (* ref *) intros c0 p0 ph0 w0 HC HR.
    assert (G : forall w0 y, (exists x, nth_error (w_calls s) w0 = Some x) -> forall w1, exists x, nth_error (upd (w_calls s) w1 y) w0 = Some x).
    { intros w y [x HX] w1. destruct (Nat.eq_dec w1 w) as [->|N]; [eexists; apply nth_upd_same; exact (nth_lt _ _ _ HX)|exists x; rewrite nth_upd_other by exact N; exact HX]. }
    unfold refers in *. wot_cases H.
    + apply nth_snoc in HC as [HC|[-> HC]]; [eauto|]. injection HC as -> ->. intuition discriminate.
    + apply nth_upd in HC as [[<- HC]|[N HC]]; [|eauto]. injection HC as -> ->. destruct HR as [HR|[HR|[HR|HR]]]; try discriminate. injection HR as <-. destruct (I4 _ _ HSL) as (x & HX & _). eauto.
    + apply nth_upd in HC as [[<- HC]|[N HC]].
      * injection HC as -> ->. destruct HR as [HR|[HR|[HR|HR]]]; try discriminate. injection HR as <-. eexists. apply nth_snoc_new.
      * destruct (I1 _ _ _ _ HC HR) as [x HX]. exists x. apply nth_snoc_old. exact HX.
    + apply nth_upd in HC as [[<- HC]|[N HC]]; [injection HC as -> ->|]; apply G; eauto. destruct HR as [HR|[HR|[HR|HR]]]; try discriminate. injection HR as <-. eauto.
    + apply nth_upd in HC as [[<- HC]|[N HC]]; [injection HC as -> ->|eauto]. destruct HR as [HR|[HR|[HR|HR]]]; try discriminate. injection HR as <-. eauto.
    + apply nth_upd in HC as [[<- HC]|[N HC]]; [injection HC as -> ->|]; apply G; eauto. destruct HR as [HR|[HR|[HR|HR]]]; try discriminate. injection HR as <-. eauto.
    + apply nth_upd in HC as [[<- HC]|[N HC]]; [injection HC as -> ->|eauto]. destruct HR as [HR|[HR|[HR|HR]]]; try discriminate. injection HR as <-. eauto.
    + apply G; eauto.
    + apply nth_upd in HC as [[<- HC]|[N HC]]; [injection HC as -> ->; intuition discriminate|]; apply G; eauto.
    + apply nth_upd in HC as [[<- HC]|[N HC]]; [injection HC as -> ->; intuition discriminate|]; apply G; eauto.
    + apply nth_upd in HC as [[<- HC]|[N HC]]; [injection HC as -> ->; intuition discriminate|]; eauto.
  - (* wait *) intros c0 p0 w0 x0 HC HX. wot_cases H; unfold owed, is_done in *; wproj.
    + apply nth_snoc in HC as [HC|[_ HC]]; [eauto|discriminate].
    + apply nth_upd in HC as [[<- HC]|[N HC]]; [discriminate|eauto].
    + apply nth_upd in HC as [[<- HC]|[N HC]]; [discriminate|]. apply nth_snoc in HX as [HX|[-> ->]]; [eauto|]. destruct (I1 _ _ _ _ HC (or_intror (or_introl eq_refl))) as [x Q]. rewrite nth_fresh in Q. discriminate.
    + apply nth_upd in HC as [[<- HC]|[N HC]].
      * injection HC as -> ->. apply nth_upd in HX as [[_ ->]|[Q _]]; [|congruence]. wproj. rewrite ?HST. split; [apply Z.eqb_eq; assumption|]. left. apply in_or_app. right. left. reflexivity.
      * apply nth_upd in HX as [[<- ->]|[Q HX]]; [|eauto]. wproj. specialize (I2 _ _ _ _ HC HW). rewrite ?HST in *. destruct I2 as [A [B|B]]; [|discriminate]. split; [exact A|]. left. apply in_or_app. auto.
    + apply nth_upd in HC as [[<- HC]|[N HC]]; [discriminate|eauto].
    + apply nth_upd in HC as [[<- HC]|[N HC]].
      * injection HC as -> ->. apply nth_upd in HX as [[_ ->]|[Q _]]; [|congruence]. wproj. rewrite ?HST. split; [apply Z.eqb_eq; assumption|auto].
      * apply nth_upd in HX as [[<- ->]|[Q HX]]; [|eauto]. wproj. specialize (I2 _ _ _ _ HC HW). rewrite ?HST in *. tauto.
    + apply nth_upd in HC as [[<- HC]|[N HC]]; [discriminate|eauto].
    + apply nth_upd in HX as [[<- ->]|[Q HX]]; [|eauto]. wproj. specialize (I2 _ _ _ _ HC HW). rewrite ?HST in *. exact I2.
    + apply nth_upd in HC as [[<- HC]|[N HC]]; [discriminate|]. apply nth_upd in HX as [[<- ->]|[Q HX]]; [|eauto]. wproj. specialize (I2 _ _ _ _ HC HW). rewrite ?HST in *. destruct I2 as [A [B|B]]; [|discriminate]. destruct B as [->|B]; [congruence|auto].
    + apply nth_upd in HC as [[<- HC]|[N HC]]; [discriminate|]. apply nth_upd in HX as [[<- ->]|[Q HX]]; [|eauto]. wproj. specialize (I2 _ _ _ _ HC HW). tauto.
    + apply nth_upd in HC as [[<- HC]|[N HC]]; [discriminate|eauto].
  - (* owner *) intros c0 p0 w0 x0 HC HX. wot_cases H; unfold is_done in *; wproj.
    + apply nth_snoc in HC as [HC|[_ HC]]; [eauto|discriminate].
    + apply nth_upd in HC as [[<- HC]|[N HC]]; [discriminate|eauto].
    + apply nth_upd in HC as [[<- HC]|[N HC]].
      * injection HC as -> ->. rewrite nth_snoc_new in HX. injection HX as <-. auto.
      * apply nth_snoc in HX as [HX|[-> ->]]; [eauto|]. destruct (I1 _ _ _ _ HC (or_intror (or_intror (or_intror eq_refl)))) as [x Q]. rewrite nth_fresh in Q. discriminate.
    + apply nth_upd in HC as [[<- HC]|[N HC]]; [discriminate|]. apply nth_upd in HX as [[<- ->]|[Q HX]]; [|eauto]. wproj. destruct (I3 _ _ _ _ HC HW) as [E X]. rewrite HST in X. auto.
    + apply nth_upd in HC as [[<- HC]|[N HC]]; [discriminate|eauto].
    + apply nth_upd in HC as [[<- HC]|[N HC]]; [discriminate|]. apply nth_upd in HX as [[<- ->]|[Q HX]]; [|eauto]. wproj. destruct (I3 _ _ _ _ HC HW) as [E X]. rewrite HST in X. auto.
    + apply nth_upd in HC as [[<- HC]|[N HC]]; [discriminate|eauto].
    + apply nth_upd in HX as [[<- ->]|[Q HX]]; [|eauto]. wproj. destruct (I3 _ _ _ _ HC HW). auto.
    + apply nth_upd in HC as [[<- HC]|[N HC]]; [discriminate|]. apply nth_upd in HX as [[<- ->]|[Q HX]]; [|eauto]. wproj. destruct (I3 _ _ _ _ HC HW). auto.
    + apply nth_upd in HC as [[<- HC]|[N HC]]; [discriminate|]. apply nth_upd in HX as [[<- ->]|[Q HX]]; [|eauto]. destruct N. eapply I7; eassumption.
    + apply nth_upd in HC as [[<- HC]|[N HC]]; [discriminate|eauto].
  - (* slot *) intros i0 w0 HS.
    assert (G : forall i w z y, (exists x, nth_error (w_calls s) w = Some x /\ is_done x = false /\ slot_of (w_id x) = i) -> nth_error (w_calls s) z = Some y -> forall y', is_done y' = false -> w_id y' = w_id y -> exists x, nth_error (upd (w_calls s) z y') w = Some x /\ is_done x = false /\ slot_of (w_id x) = i).
    { intros i w z y (x & X1 & X2 & X3) HZ y' Y1 Y2. destruct (Nat.eq_dec z w) as [->|N]; [|exists x; rewrite nth_upd_other by exact N; auto]. exists y'. rewrite nth_upd_same by exact (nth_lt _ _ _ HZ). split; [reflexivity|]. split; [exact Y1|]. rewrite Y2. congruence. }
    wot_cases H; eauto.
    + unfold set_slot in HS. destruct (Z.eqb_spec i0 (slot_of (shid p))) as [->|N].
      * injection HS as <-. eexists. split; [apply nth_snoc_new|]. auto.
      * destruct (I4 _ _ HS) as (x & X1 & X2). exists x. split; [apply nth_snoc_old; exact X1|exact X2].
    + destruct (I4 _ _ HS) as (x & X1 & X2 & X3). exists x. split; [|auto]. rewrite nth_upd_other; [exact X1|]. intros ->. unfold is_done in X2. rewrite HW in X1. injection X1 as <-. rewrite ?HST in X2. discriminate.
    + unfold set_slot in HS. destruct (Z.eqb_spec i0 (slot_of (shid p))) as [->|N]; [discriminate|]. destruct (I4 _ _ HS) as (x & X1 & X2 & X3). exists x. split; [|auto]. rewrite nth_upd_other; [exact X1|]. intros ->. rewrite HW in X1. injection X1 as <-. destruct (I3 _ _ _ _ HN HW) as [E _]. congruence.
  - (* open *) intros w0 x0 HX HD. wot_cases H; eauto.
    + apply nth_snoc in HX as [HX|[-> ->]]; unfold set_slot.
      * destruct (Z.eqb_spec (slot_of (w_id x0)) (slot_of (shid p))) as [E|N]; [|eauto]. specialize (I5 _ _ HX HD). congruence.
      * wproj. rewrite Z.eqb_refl. reflexivity.
    + apply nth_upd in HX as [[<- ->]|[Q HX]]; [|eauto]. wproj. apply I5; [exact HW|]. unfold is_done. rewrite ?HST. reflexivity.
    + apply nth_upd in HX as [[<- ->]|[Q HX]]; [|eauto]. wproj. apply I5; [exact HW|]. unfold is_done in *. wproj. rewrite ?HST in *. exact HD.
    + apply nth_upd in HX as [[<- ->]|[Q HX]]; [|eauto]. wproj. apply I5; [exact HW|]. unfold is_done. rewrite ?HST. reflexivity.
    + apply nth_upd in HX as [[<- ->]|[Q HX]]; [|eauto]. wproj. apply I5; [exact HW|]. unfold is_done. rewrite ?HST. reflexivity.
    + apply nth_upd in HX as [[<- ->]|[Q HX]]; [discriminate|]. unfold set_slot. destruct (Z.eqb_spec (slot_of (w_id x0)) (slot_of (shid p))) as [E|N]; [|eauto]. destruct (I3 _ _ _ _ HN HW) as [E2 E3]. pose proof (I5 _ _ HX HD) as A. pose proof (I5 _ _ HW E3) as B. rewrite E2 in B. congruence.
  - (* has *) intros w0 x0 HX HD.
    assert (G : forall c ph q ph', nth_error (w_callers s) c = Some (q, ph) -> (forall w, ph <> COwner w) -> (exists d p, nth_error (w_callers s) d = Some (p, COwner w0)) -> exists d p, nth_error (upd (w_callers s) c (q, ph')) d = Some (p, COwner w0)).
    { intros c ph q ph' HC NO (d & p & HD'). exists d, p. rewrite nth_upd_other; [exact HD'|]. intros ->. rewrite HC in HD'. injection HD' as -> ->. apply (NO w0). reflexivity. }
    wot_cases H.
    + destruct (I6 _ _ HX HD) as (c & q & HC). exists c, q. apply nth_snoc_old. exact HC.
    + eapply G; [exact HN|discriminate|eauto].
    + apply nth_snoc in HX as [HX|[-> ->]]; [eapply G; [exact HN|discriminate|eauto]|]. exists c, p. apply nth_upd_same. exact (nth_lt _ _ _ HN).
    + eapply G; [exact HN|discriminate|]. apply nth_upd in HX as [[<- ->]|[Q HX]]; [|eauto]. eapply I6; [exact HW|]. unfold is_done. rewrite ?HST. reflexivity.
    + eapply G; [exact HN|discriminate|eauto].
    + eapply G; [exact HN|discriminate|]. apply nth_upd in HX as [[<- ->]|[Q HX]]; [|eauto]. eapply I6; [exact HW|]. unfold is_done in *. wproj. rewrite ?HST in *. exact HD.
    + eapply G; [exact HN|discriminate|eauto].
    + apply nth_upd in HX as [[<- ->]|[Q HX]]; [|eauto]. eauto.
    + eapply G; [eassumption|discriminate|]. apply nth_upd in HX as [[<- ->]|[Q HX]]; [|eauto]. eauto.
    + apply nth_upd in HX as [[<- ->]|[Q HX]]; [discriminate|]. destruct (I6 _ _ HX HD) as (d & q & HC). exists d, q. rewrite nth_upd_other; [exact HC|]. intros ->. rewrite HN in HC. injection HC as -> ->. congruence.
    + eapply G; [exact HN|discriminate|eauto].
  - (* one *) intros c0 d0 p0 q0 w0 HC HD.
    assert (G : forall c ph q ph', nth_error (w_callers s) c = Some (q, ph) -> (forall w, ph' <> COwner w) -> nth_error (upd (w_callers s) c (q, ph')) c0 = Some (p0, COwner w0) -> nth_error (upd (w_callers s) c (q, ph')) d0 = Some (q0, COwner w0) -> c0 = d0).
    { intros c ph q ph' _ NO A B. apply nth_upd in A as [[_ A]|[_ A]]; [injection A as _ A; symmetry in A; destruct (NO _ A)|]. apply nth_upd in B as [[_ B]|[_ B]]; [injection B as _ B; symmetry in B; destruct (NO _ B)|]. eauto. }
    wot_cases H; try (eapply G; [eassumption| |exact HC|exact HD]; discriminate); eauto.
    + apply nth_snoc in HC as [HC|[_ HC]]; [|discriminate]. apply nth_snoc in HD as [HD|[_ HD]]; [|discriminate]. eauto.
    + assert (F : forall e z, nth_error (w_callers s) e <> Some (z, COwner (length (w_calls s)))). { intros e z Q. destruct (I1 _ _ _ _ Q (or_intror (or_intror (or_intror eq_refl)))) as [x Q2]. rewrite nth_fresh in Q2. discriminate. }
      apply nth_upd in HC as [[<- HC]|[N1 HC]], HD as [[<- HD]|[N2 HD]] || (apply nth_upd in HC as [[<- HC]|[N1 HC]]; apply nth_upd in HD as [[<- HD]|[N2 HD]]); eauto.
      * injection HC as -> ->. destruct (F _ _ HD).
      * injection HD as -> ->. destruct (F _ _ HC).
  - (* owed *) intros w0 x0 HX.
    assert (G : forall c ph q ph', nth_error (w_callers s) c = Some (q, ph) -> (ph <> CWaiting w0) -> (forall d, In d (owed x0) -> exists q, nth_error (w_callers s) d = Some (q, CWaiting w0)) -> forall d, In d (owed x0) -> exists p, nth_error (upd (w_callers s) c (q, ph')) d = Some (p, CWaiting w0)).
    { intros c ph q ph' HC NO A d HI. destruct (A d HI) as [p HD]. exists p. rewrite nth_upd_other; [exact HD|]. intros ->. rewrite HC in HD. injection HD as -> ->. destruct NO. reflexivity. }
    wot_cases H.
    + destruct (I8 _ _ HX) as [A B]. split; [exact A|]. intros d HI. destruct (B d HI) as [q HQ]. exists q. apply nth_snoc_old. exact HQ.
    + destruct (I8 _ _ HX) as [A B]. split; [exact A|]. eapply G; [eassumption|discriminate|exact B].
    + apply nth_snoc in HX as [HX|[-> ->]]; [|split; [constructor|intros ? []]]. destruct (I8 _ _ HX) as [A B]. split; [exact A|]. eapply G; [eassumption|discriminate|exact B].
    + apply nth_upd in HX as [[<- ->]|[Q HX]]; [|destruct (I8 _ _ HX) as [A B]; split; [exact A|]; eapply G; [eassumption|discriminate|exact B]]. destruct (I8 _ _ HW) as [A B]. unfold owed in *. wproj. rewrite ?HST in *. split.
      * apply (NoDup_Add (a := c) (l := w_waiters w1)); [pose proof (Add_app c (w_waiters w1) []) as X; rewrite app_nil_r in X; exact X|]. split; [exact A|]. intro HI. destruct (B _ HI) as [q HQ]. congruence.
      * intros d HI. apply in_app_or in HI as [HI|[<-|[]]]; [|eexists; apply nth_upd_same; exact (nth_lt _ _ _ HN)]. destruct (B d HI) as [q HQ]. exists q. rewrite nth_upd_other; [exact HQ|]. intros ->. congruence.
    + destruct (I8 _ _ HX) as [A B]. split; [exact A|]. eapply G; [eassumption|discriminate|exact B].
    + apply nth_upd in HX as [[<- ->]|[Q HX]]; [|destruct (I8 _ _ HX) as [A B]; split; [exact A|]; eapply G; [eassumption|discriminate|exact B]]. unfold owed. wproj. rewrite ?HST. split; [constructor|intros ? []].
    + destruct (I8 _ _ HX) as [A B]. split; [exact A|]. eapply G; [eassumption|discriminate|exact B].
    + apply nth_upd in HX as [[<- ->]|[Q HX]]; [|eauto]. specialize (I8 _ _ HW). unfold owed in *. wproj. rewrite ?HST in *. exact I8.
    + apply nth_upd in HX as [[<- ->]|[Q HX]].
      * destruct (I8 _ _ HW) as [A B]. unfold owed in *. wproj. rewrite ?HST in *. apply NoDup_cons_iff in A as [A1 A2]. split; [exact A2|]. intros d HI. destruct (B d (or_intror HI)) as [z HZ]. exists z. rewrite nth_upd_other; [exact HZ|]. intros ->. contradiction.
      * destruct (I8 _ _ HX) as [A B]. split; [exact A|]. eapply G; [eassumption| |exact B]. apply Nat.eqb_eq in Heqb. congruence.
    + apply nth_upd in HX as [[<- ->]|[Q HX]]; [split; [constructor|intros ? []]|]. destruct (I8 _ _ HX) as [A B]. split; [exact A|]. eapply G; [eassumption|discriminate|exact B].
    + destruct (I8 _ _ HX) as [A B]. split; [exact A|]. eapply G; [eassumption|discriminate|exact B].
  - (* sending *) intros w0 x0 r0 todo0 HX HS.
    assert (G : forall x, nth_error (w_calls s) w0 = Some x -> forall r todo, w_st x = WSending r todo -> exists c p ph, In (OComputed c r) (w_log s') /\ nth_error (w_callers s') c = Some (p, ph) /\ shid p = w_id x).
    { intros x Q r todo Q2. destruct (I9 _ _ _ _ Q Q2) as (c & p & ph & A & B & C). eapply CK; eassumption. }
    assert (KK' := KK). wot_cases H; try (eapply G; eassumption).
    + apply nth_snoc in HX as [HX|[_ ->]]; [eapply G; eassumption|discriminate].
    + apply nth_upd in HX as [[<- ->]|[Q HX]]; [|eapply G; eassumption]. wproj. congruence.
    + apply nth_upd in HX as [[<- ->]|[Q HX]]; [|eapply G; eassumption]. wproj. congruence.
    + apply nth_upd in HX as [[<- ->]|[Q HX]]; [|eapply G; eassumption]. wproj. injection HS as <- <-. exists c, p, (COwner w). split; [left; reflexivity|]. split; [exact HN|]. destruct (I3 _ _ _ _ HN HW). congruence.
    + apply nth_upd in HX as [[<- ->]|[Q HX]]; [|eapply G; eassumption]. wproj. injection HS as <- <-. eapply (G _ HW). exact HST.
    + apply nth_upd in HX as [[<- ->]|[Q HX]]; [discriminate|eapply G; eassumption].
  - (* log *) intros d0 r0 HI.
    assert (G : In (OReturned d0 r0) (w_log s) -> exists q, nth_error (w_callers s') d0 = Some (q, CReturned r0) /\ exists c p ph, In (OComputed c r0) (w_log s') /\ nth_error (w_callers s') c = Some (p, ph) /\ shid p = shid q).
    { intro Q. destruct (I10 _ _ Q) as (q & A & c & p & ph & B1 & B2 & B3). exists q. split; [|eapply CK; eassumption]. clear KK CK HI. wot_cases H; try exact A; try (apply nth_snoc_old; exact A); (rewrite nth_upd_other; [exact A|]; intros ->; congruence). }
    assert (NEW : forall w x r todo q, nth_error (w_calls s) w = Some x -> w_st x = WSending r todo -> w_id x = shid q -> exists c p ph, In (OComputed c r) (w_log s') /\ nth_error (w_callers s') c = Some (p, ph) /\ shid p = shid q).
    { intros w x r todo q A B C. destruct (I9 _ _ _ _ A B) as (c & p & ph & X1 & X2 & X3). eapply CK; [exact X1|exact X2|congruence]. }
    wot_cases H; auto.
    + destruct HI as [HI|HI]; [discriminate|auto].
    + destruct HI as [HI|HI]; [|auto]. injection HI as <- <-. eexists. split; [apply nth_upd_same; eapply nth_lt; eassumption|]. eapply NEW; [exact HW|exact HST|]. apply Nat.eqb_eq in Heqb. subst. eapply I2; eassumption.
    + destruct HI as [HI|HI]; [|auto]. injection HI as <- <-. eexists. split; [apply nth_upd_same; eapply nth_lt; eassumption|]. eapply NEW; [exact HW|exact HST|]. eapply I3; eassumption.
  - (* ret *) intros d0 q0 r0 HR. wot_cases H; eauto.
    + apply nth_snoc in HR as [HR|[_ HR]]; [eauto|discriminate].
    + apply nth_upd in HR as [[<- HR]|[N HR]]; [discriminate|eauto].
    + apply nth_upd in HR as [[<- HR]|[N HR]]; [discriminate|eauto].
    + apply nth_upd in HR as [[<- HR]|[N HR]]; [discriminate|eauto].
    + apply nth_upd in HR as [[<- HR]|[N HR]]; [discriminate|eauto].
    + apply nth_upd in HR as [[<- HR]|[N HR]]; [discriminate|eauto].
    + apply nth_upd in HR as [[<- HR]|[N HR]]; [discriminate|eauto].
    + right. eauto.
    + apply nth_upd in HR as [[<- HR]|[N HR]]; [injection HR as -> ->; left; reflexivity|right; eauto].
    + apply nth_upd in HR as [[<- HR]|[N HR]]; [injection HR as -> ->; left; reflexivity|right; eauto].
    + apply nth_upd in HR as [[<- HR]|[N HR]]; [discriminate|eauto].
Qed.
Lemma wot_inv_init : WInv (wot_init P R).
Proof. constructor; cbn; intros; try discriminate; try (destruct c; discriminate); try (destruct w; discriminate); try contradiction. destruct d; discriminate. Qed.
Lemma wot_inv s : reaches step (wot_init P R) s -> WInv s.
Proof. apply (invariant step WInv); [exact wot_inv_init|intros; eapply wot_inv_step; eassumption]. Qed.

(** Every action but a new caller uses up some of this: what a caller can still do, given which calls are done. *)
Definition internal (a : waction P R) : bool := match a with WNew _ => false | _ => true end.
Definition fin (calls : list (wcall R)) (w : nat) : bool := match nth_error calls w with Some x => is_done x | None => false end.
Definition sends (calls : list (wcall R)) (w : nat) : bool := match nth_error calls w with Some x => match w_st x with WSending _ _ => true | _ => false end | None => false end.
Definition cost (n : nat) (calls : list (wcall R)) (c : P * wphase R) : nat :=
  match snd c with
  | CStart => 3 * n + 5
  | CGot w => 3 * n + if fin calls w then 7 else 4
  | CAwait w => 3 * n + if fin calls w then 6 else 3
  | COwner w => 3 * n + if sends calls w then 1 else 2
  | CWaiting _ => 1
  | CReturned _ => 0
  end.
Definition weight s : nat := c_total (cost (length (w_callers s)) (w_calls s)) (w_callers s).
Lemma c_total_ext {X} (f g : X -> nat) l : (forall x : X, In x l -> f x = g x) -> c_total f l = c_total g l.
Proof. intro H. induction l as [|z l IH]; [reflexivity|]. unfold c_total in *. cbn [fold_right]. rewrite H by (left; reflexivity). rewrite IH; [reflexivity|]. intros y HY. apply H. right. exact HY. Qed.
Lemma c_total_slack {X} (f g : X -> nat) k l : (forall x : X, In x l -> f x <= g x + k) -> c_total f l <= c_total g l + k * length l.
Proof. intro H. induction l as [|z l IH]; [cbn; lia|]. unfold c_total in *. cbn [fold_right length]. specialize (IH (fun y HY => H y (or_intror HY))). specialize (H z (or_introl eq_refl)). lia. Qed.
Lemma fin_upd calls w x y v : nth_error calls w = Some x -> is_done y = is_done x -> fin (upd calls w y) v = fin calls v.
Proof. intros H E. unfold fin. destruct (Nat.eq_dec w v) as [->|N]; [rewrite nth_upd_same by exact (nth_lt _ _ _ H); rewrite H; exact E|rewrite nth_upd_other by exact N; reflexivity]. Qed.
Lemma sends_upd calls w x y v : nth_error calls w = Some x -> (match w_st y with WSending _ _ => true | _ => false end) = (match w_st x with WSending _ _ => true | _ => false end) -> sends (upd calls w y) v = sends calls v.
Proof. intros H E. unfold sends. destruct (Nat.eq_dec w v) as [->|N]; [rewrite nth_upd_same by exact (nth_lt _ _ _ H); rewrite H; exact E|rewrite nth_upd_other by exact N; reflexivity]. Qed.
Lemma weight_step a s s' : WInv s -> internal a = true -> step a s = Some s' -> weight s' < weight s.
Proof.
  intros I IN H.
  assert (EXT : forall n calls', (forall v, fin calls' v = fin (w_calls s) v) -> (forall v, sends calls' v = sends (w_calls s) v) -> forall c, cost n calls' c = cost n (w_calls s) c).
  { intros n calls' A B c. unfold cost. destruct (snd c); rewrite ?A, ?B; reflexivity. }
  assert (UP : forall c p ph ph', nth_error (w_callers s) c = Some (p, ph) -> forall n calls, c_total (cost n calls) (upd (w_callers s) c (p, ph')) + cost n calls (p, ph) = c_total (cost n calls) (w_callers s) + cost n calls (p, ph')).
  { intros c p ph ph' A n calls. apply c_total_upd. exact A. }
  unfold weight. wot_cases H; try discriminate IN; rewrite ?upd_length; set (k := length (w_callers s)).
  - (* look, taken *) pose proof (UP _ _ _ (CGot n) HN k (w_calls s)) as U. destruct (wi_slot s I _ _ HSL) as (x & X1 & X2 & _). unfold cost in U at 2 4. cbn [snd] in U. unfold fin in U. rewrite X1, X2 in U. lia.
  - (* look, free *)
    assert (E : forall c, In c (w_callers s) -> cost k (w_calls s ++ [mkCall (shid p) [] WOpen]) c = cost k (w_calls s) c).
    { intros [q ph] HI. apply In_nth_error in HI as [d HD]. unfold cost. cbn [snd]. assert (Q : forall w, refers ph w -> nth_error (w_calls s ++ [mkCall (shid p) [] WOpen]) w = nth_error (w_calls s) w).
      { intros w HR. destruct (wi_ref s I _ _ _ _ HD HR) as [x HX]. apply nth_error_app1. exact (nth_lt _ _ _ HX). }
      unfold refers in Q. destruct ph; unfold fin, sends; rewrite ?Q by auto; reflexivity. }
    pose proof (UP _ _ _ (COwner (length (w_calls s))) HN k (w_calls s ++ [mkCall (shid p) [] WOpen])) as U. rewrite (c_total_ext _ _ (w_callers s) E) in U. unfold cost in U at 2 4. cbn [snd] in U. unfold sends in U. rewrite nth_snoc_new in U. cbn in U. lia.
  - (* join, open *) rewrite (c_total_ext _ (cost k (w_calls s))).
    + pose proof (UP _ _ _ (CWaiting w) HN k (w_calls s)) as U. unfold cost in U at 2 4. cbn [snd] in U. destruct (fin (w_calls s) w); lia.
    + intros c' _. apply EXT; intro v; [eapply fin_upd|eapply sends_upd]; try exact HW; unfold is_done; rewrite HST; reflexivity.
  - pose proof (UP _ _ _ (CAwait w) HN k (w_calls s)) as U. unfold cost in U at 2 4. cbn [snd] in U. destruct (fin (w_calls s) w); lia.
  - rewrite (c_total_ext _ (cost k (w_calls s))).
    + pose proof (UP _ _ _ (CWaiting w) HN k (w_calls s)) as U. unfold cost in U at 2 4. cbn [snd] in U. destruct (fin (w_calls s) w); lia.
    + intros c' _. apply EXT; intro v; [eapply fin_upd|eapply sends_upd]; try exact HW; unfold is_done; rewrite HST; reflexivity.
  - pose proof (UP _ _ _ (CAwait w) HN k (w_calls s)) as U. unfold cost in U at 2 4. cbn [snd] in U. destruct (fin (w_calls s) w); lia.
  - (* compute *) set (x' := mkCall (w_id w0) (w_waiters w0) (WSending r (w_waiters w0))).
    assert (F : forall v, fin (upd (w_calls s) w x') v = fin (w_calls s) v) by (intro v; eapply fin_upd; [exact HW|unfold is_done; rewrite HST; reflexivity]).
    assert (L : forall c', cost k (upd (w_calls s) w x') c' <= cost k (w_calls s) c').
    { intros [q ph]. unfold cost. cbn [snd]. destruct ph; rewrite ?F; try lia. unfold sends. destruct (Nat.eq_dec w w1) as [->|N]; [rewrite nth_upd_same by exact (nth_lt _ _ _ HW); rewrite HW, HST; cbn; lia|rewrite nth_upd_other by exact N; lia]. }
    assert (Lt : cost k (upd (w_calls s) w x') (p, COwner w) < cost k (w_calls s) (p, COwner w)).
    { unfold cost, sends. cbn [snd]. rewrite nth_upd_same by exact (nth_lt _ _ _ HW). rewrite HW, HST. cbn. lia. }
    revert L Lt HN. generalize (cost k (upd (w_calls s) w x')) (cost k (w_calls s)). intros f g L Lt HN. clear - L Lt HN. revert c HN. generalize (w_callers s). induction l as [|y l IH]; intros [|c] HN; try discriminate; cbn [nth_error] in HN; unfold c_total in *; cbn [fold_right].
    + injection HN as ->. pose proof (c_total_le f g l L) as Q. unfold c_total in Q. lia.
    + specialize (IH _ HN). specialize (L y). lia.
  - (* send *) rewrite (c_total_ext _ (cost k (w_calls s))).
    + pose proof (UP _ _ _ (CReturned r) HN0 k (w_calls s)) as U. unfold cost in U at 2 4. cbn [snd] in U. lia.
    + intros c' _. apply EXT; intro v; [eapply fin_upd|eapply sends_upd]; try exact HW; unfold is_done; rewrite HST; reflexivity.
  - (* finish *) set (x' := mkCall (w_id w0) (w_waiters w0) WDone).
    pose proof (UP _ _ _ (CReturned r) HN k (w_calls s)) as U. unfold cost in U at 2 4. cbn [snd] in U. unfold sends in U. rewrite HW, HST in U.
    assert (Q : forall c', cost k (upd (w_calls s) w x') c' <= cost k (w_calls s) c' + match snd c' with CReturned _ => 0 | COwner v => if Nat.eqb v w then 1 else 3 | _ => 3 end).
    { intros [q ph]. unfold cost. cbn [snd]. destruct ph as [|v|v|v|v|]; try lia.
      - destruct (fin _ _), (fin _ _); lia.
      - destruct (fin _ _), (fin _ _); lia.
      - unfold sends. destruct (Nat.eq_dec w v) as [->|N]; [rewrite nth_upd_same by exact (nth_lt _ _ _ HW); rewrite HW, HST; cbn; rewrite Nat.eqb_refl; lia|rewrite nth_upd_other by exact N; lia]. }
    assert (S1 : c_total (cost k (upd (w_calls s) w x')) (upd (w_callers s) c (p, CReturned r)) <= c_total (cost k (w_calls s)) (upd (w_callers s) c (p, CReturned r)) + 3 * length (upd (w_callers s) c (p, CReturned r))).
    { apply c_total_slack. intros [q ph] _. specialize (Q (q, ph)). cbn [snd] in Q. destruct ph; try lia. destruct (Nat.eqb _ _); lia. }
    rewrite upd_length in S1. fold k in S1. lia.
  - (* again *) pose proof (UP _ _ _ CStart HN k (w_calls s)) as U. unfold cost in U at 2 4. cbn [snd] in U. unfold fin, is_done in U. rewrite HW, HST in U. lia.
Qed.
Lemma weight_run acts s s' : WInv s -> forallb internal acts = true -> exec step acts s = Some s' -> length acts + weight s' <= weight s.
Proof.
  revert s. induction acts as [|a acts IH]; intros s I F H; cbn [forallb exec length] in *; [injection H as <-; lia|].
  apply andb_true_iff in F as [F1 F2]. destruct (step a s) as [s1|] eqn:E; [|discriminate]. pose proof (wot_inv_step _ _ _ I E) as I'. apply weight_step in E; [|exact I|exact F1]. apply IH in H; [|exact I'|exact F2]. lia.
Qed.
(** Nothing can move only when every caller has returned or waits on a call that is over. [r]: some result exists. *)
Lemma wot_quiet s (r0 : R) : WInv s -> (forall a, internal a = true -> step a s = None) ->
  forall c p ph, nth_error (w_callers s) c = Some (p, ph) -> (exists r, ph = CReturned r) \/ exists w x, ph = CWaiting w /\ nth_error (w_calls s) w = Some x /\ is_done x = true.
Proof.
  intros I Q.
  assert (NOOWN : forall c p w, nth_error (w_callers s) c <> Some (p, COwner w)).
  { intros c p w HC. destruct (wi_ref s I _ _ _ w HC (or_intror (or_intror (or_intror eq_refl)))) as [x HX]. destruct (wi_owner s I _ _ _ _ HC HX) as [_ ND]. unfold is_done in ND. destruct (w_st x) as [|r [|d todo]|] eqn:ST; [| | |discriminate].
    - specialize (Q (WCompute c r0) eq_refl). cbn in Q. rewrite HC, HX, ST in Q. discriminate.
    - specialize (Q (WFinish c) eq_refl). cbn in Q. rewrite HC, HX, ST in Q. discriminate.
    - specialize (Q (WSend c) eq_refl). cbn in Q. rewrite HC, HX, ST in Q. destruct (wi_owed s I _ _ HX) as [_ O]. unfold owed in O. rewrite ST in O. destruct (O d (or_introl eq_refl)) as [q HQ]. rewrite HQ, Nat.eqb_refl in Q. discriminate. }
  assert (DONE : forall w x, nth_error (w_calls s) w = Some x -> is_done x = true).
  { intros w x HX. destruct (is_done x) eqn:D; [reflexivity|]. destruct (wi_has s I _ _ HX D) as (c & p & HC). destruct (NOOWN _ _ _ HC). }
  intros c p ph HC. destruct ph as [|w|w|w|w|r].
  - specialize (Q (WLook c) eq_refl). cbn in Q. rewrite HC in Q. destruct (w_slots s _); discriminate.
  - specialize (Q (WJoin c) eq_refl). cbn in Q. rewrite HC in Q. destruct (wi_ref s I _ _ _ w HC (or_introl eq_refl)) as [x HX]. pose proof (DONE _ _ HX) as D. rewrite HX in Q. unfold is_done in D. destruct (w_st x); try discriminate. destruct (w_id x =? shid p)%Z; discriminate.
  - right. destruct (wi_ref s I _ _ _ w HC (or_intror (or_introl eq_refl))) as [x HX]. exists w, x. split; [reflexivity|split; [exact HX|exact (DONE _ _ HX)]].
  - specialize (Q (WAgain c) eq_refl). cbn in Q. rewrite HC in Q. destruct (wi_ref s I _ _ _ w HC (or_intror (or_intror (or_introl eq_refl)))) as [x HX]. pose proof (DONE _ _ HX) as D. rewrite HX in Q. unfold is_done in D. destruct (w_st x); discriminate.
  - destruct (NOOWN _ _ _ HC).
  - eauto.
Qed.
End Wot.
