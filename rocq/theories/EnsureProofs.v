(** Proofs about EnsureModel. *)
From Verif Require Import Base Machine FilterModel StoreModel StoreProofs EnsureModel.
Import ListNotations.

Definition holds (c : ecall) : bool := match c with EChecking | EDialing => true | _ => false end.
Section Ensure.
Variable norm : str -> str.
Variable memhash : str -> nat.
Notation step := (ensure_step norm memhash).
Notation lk url := (lock_of memhash (norm url)).
Definition ensure_reachable (s : estate) : Prop := reaches step ensure_init s.
Inductive emove : estate -> estate -> Prop :=
| em_call cs ls rs ks o url : emove (mkE cs ls rs ks o) (mkE (cs ++ [(url, EWaiting)]) ls rs ks o)
| em_lock cs ls rs ks o i url : nth_error cs i = Some (url, EWaiting) -> nth_error ls (lk url) = Some false ->
    emove (mkE cs ls rs ks o) (mkE (upd cs i (url, EChecking)) (upd ls (lk url) true) rs ks o)
| em_found cs ls rs ks o i url k u : nth_error cs i = Some (url, EChecking) -> assoc (norm url) rs = Some k -> nth_error ks k = Some (u, true) ->
    emove (mkE cs ls rs ks o) (mkE (upd cs i (url, EReturned (Some k))) (upd ls (lk url) false) rs ks o)
| em_dead cs ls rs ks o i url : nth_error cs i = Some (url, EChecking) ->
    (forall k u, assoc (norm url) rs = Some k -> nth_error ks k <> Some (u, true)) ->
    emove (mkE cs ls rs ks o) (mkE (upd cs i (url, EDialing)) ls rs ks o)
| em_made cs ls rs ks i url : nth_error cs i = Some (url, EDialing) ->
    emove (mkE cs ls rs ks true) (mkE (upd cs i (url, EReturned (Some (length ks)))) (upd ls (lk url) false) (mset (norm url) (length ks) rs) (ks ++ [(norm url, true)]) true)
| em_failed cs ls rs ks o i url : nth_error cs i = Some (url, EDialing) ->
    emove (mkE cs ls rs ks o) (mkE (upd cs i (url, EReturned None)) (upd ls (lk url) false) rs ks o)
| em_drop cs ls rs ks o k u : nth_error ks k = Some (u, true) -> emove (mkE cs ls rs ks o) (mkE cs ls rs (upd ks k (u, false)) o)
| em_close cs ls rs ks o : emove (mkE cs ls rs ks o) (mkE cs ls rs ks false).
Lemma ensure_move a s s' : step a s = Some s' -> emove s s'.
Proof.
  destruct s as [cs ls rs ks o], a as [url|i|i|i ok|k|]; unfold ensure_step, with_call, unlocked; cbn [e_calls e_locks e_relays e_conns e_open]; intro H.
  - injection H as <-. constructor.
  - destruct (nth_error cs i) as [[url []]|] eqn:E; try discriminate. destruct (nth_error ls (lk url)) as [[]|] eqn:L; try discriminate. injection H as <-. eapply em_lock; eassumption.
  - destruct (nth_error cs i) as [[url []]|] eqn:E; try discriminate. destruct (assoc (norm url) rs) as [k|] eqn:A.
    + destruct (nth_error ks k) as [[u []]|] eqn:K; injection H as <-.
      * eapply em_found; eassumption.
      * apply em_dead; [exact E|]. intros k' u' Q. rewrite A in Q. injection Q as <-. rewrite K. discriminate.
      * apply em_dead; [exact E|]. intros k' u' Q. rewrite A in Q. injection Q as <-. rewrite K. discriminate.
    + injection H as <-. apply em_dead; [exact E|]. intros k' u' Q. rewrite A in Q. discriminate.
  - destruct (nth_error cs i) as [[url []]|] eqn:E; try discriminate. destruct ok; [destruct o; [|discriminate]|]; injection H as <-.
    + apply em_made. exact E.
    + apply em_failed. exact E.
  - destruct (nth_error ks k) as [[u []]|] eqn:K; try discriminate. injection H as <-. apply em_drop. exact K.
  - injection H as <-. constructor.
Qed.

Record EInv (s : estate) : Prop := mkEI {
  ev_len : length (e_locks s) = max_locks;
  ev_lock : forall i url c, nth_error (e_calls s) i = Some (url, c) -> holds c = true -> nth_error (e_locks s) (lk url) = Some true;
  ev_excl : forall i j u v c d, nth_error (e_calls s) i = Some (u, c) -> nth_error (e_calls s) j = Some (v, d) -> holds c = true -> holds d = true -> lk u = lk v -> i = j;
  ev_held : forall l, nth_error (e_locks s) l = Some true -> exists i url c, nth_error (e_calls s) i = Some (url, c) /\ holds c = true /\ lk url = l;
  ev_map : forall u k, assoc u (e_relays s) = Some k -> exists b, nth_error (e_conns s) k = Some (u, b);
  ev_live : forall k u, nth_error (e_conns s) k = Some (u, true) -> assoc u (e_relays s) = Some k;
  ev_dial : forall i url, nth_error (e_calls s) i = Some (url, EDialing) -> forall k, nth_error (e_conns s) k <> Some (norm url, true);
  ev_ret : forall i url k, nth_error (e_calls s) i = Some (url, EReturned (Some k)) -> exists b, nth_error (e_conns s) k = Some (norm url, b) }.

Lemma lock_bound u : lk u < max_locks.
Proof. unfold lock_of. apply Nat.mod_upper_bound. discriminate. Qed.
Lemma ensure_inv s : ensure_reachable s -> EInv s.
Proof.
  revert s. apply invariant.
  - constructor; cbn [ensure_init e_calls e_locks e_relays e_conns].
    + apply repeat_length.
    + intros [] ? ? H; discriminate H.
    + intros [] ? ? ? ? ? H; discriminate H.
    + intros l H. apply nth_error_In in H. apply repeat_spec in H. discriminate H.
    + discriminate.
    + intros [] ? H; discriminate H.
    + intros [] ? H; discriminate H.
    + intros [] ? ? H; discriminate H.
  - intros a s s' I H. apply ensure_move in H. destruct I as [H1 H2 H3 H4 H5 H6 H7 H8]. destruct H; cbn [e_calls e_locks e_relays e_conns e_open] in *.
    + (* call *) constructor; cbn [e_calls e_locks e_relays e_conns]; auto.
      * intros i u c Q. apply nth_snoc in Q as [Q|[_ Q]]; [eauto|]. injection Q as -> ->. discriminate.
      * intros i j u v c d Q R. apply nth_snoc in Q as [Q|[_ Q]]; [|injection Q as -> ->; discriminate]. apply nth_snoc in R as [R|[_ R]]; [eauto|injection R as -> ->; discriminate].
      * intros l Q. destruct (H4 l Q) as (i & u & c & E & F). exists i, u, c. split; [apply nth_snoc_old, E|exact F].
      * intros i u Q. apply nth_snoc in Q as [Q|[_ Q]]; [eauto|discriminate].
      * intros i u k Q. apply nth_snoc in Q as [Q|[_ Q]]; [eauto|discriminate].
    + (* lock *) assert (NH : forall j v d, nth_error cs j = Some (v, d) -> holds d = true -> lk v <> lk url).
      { intros j v d Q F E. specialize (H2 j v d Q F). rewrite E in H2. congruence. }
      constructor; cbn [e_calls e_locks e_relays e_conns]; auto.
      * rewrite upd_length. exact H1.
      * intros j v d Q F. apply nth_upd in Q as [[-> Q]|[N Q]]; [injection Q as -> ->; apply nth_upd_same, (nth_lt _ _ _ H0)|].
        rewrite nth_upd_other; [eauto|]. intro E. symmetry in E. exact (NH j v d Q F E).
      * intros j j' v v' d d' Q R F G E. apply nth_upd in Q as [[-> Q]|[N Q]]; apply nth_upd in R as [[-> R]|[N' R]]; auto.
        -- injection Q as -> ->. exfalso. exact (NH _ _ _ R G (eq_sym E)).
        -- injection R as -> ->. exfalso. exact (NH _ _ _ Q F E).
        -- eauto.
      * intros l Q. apply nth_upd in Q as [[<- _]|[N Q]].
        -- exists i, url, EChecking. split; [apply nth_upd_same, (nth_lt _ _ _ H)|auto].
        -- destruct (H4 l Q) as (j & v & d & E & F & G). exists j, v, d. split; [|auto]. rewrite nth_upd_other; [exact E|]. intros ->. rewrite H in E. injection E as <- <-. discriminate F.
      * intros j v Q. apply nth_upd in Q as [[-> Q]|[N Q]]; [discriminate|eauto].
      * intros j v k Q. apply nth_upd in Q as [[-> Q]|[N Q]]; [discriminate|eauto].
    + (* found *) assert (NH : forall j v d, i <> j -> nth_error cs j = Some (v, d) -> holds d = true -> lk url <> lk v).
      { intros j v d N Q F E. apply N. eapply (H3 i j url v EChecking d); eauto. }
      constructor; cbn [e_calls e_locks e_relays e_conns]; auto.
      * rewrite upd_length. exact H1.
      * intros j v d Q F. apply nth_upd in Q as [[-> Q]|[N Q]]; [injection Q as -> ->; discriminate F|]. rewrite nth_upd_other; eauto.
      * intros j j' v v' d d' Q R F G E. apply nth_upd in Q as [[-> Q]|[N Q]]; [injection Q as -> ->; discriminate F|]. apply nth_upd in R as [[-> R]|[N' R]]; [injection R as -> ->; discriminate G|]. eauto.
      * intros l Q. apply nth_upd in Q as [[_ Q]|[N Q]]; [discriminate|]. destruct (H4 l Q) as (j & v & d & E & F & G). exists j, v, d. split; [|auto]. rewrite nth_upd_other; [exact E|]. intros ->. rewrite H in E. injection E as <- <-. contradiction.
      * intros j v Q. apply nth_upd in Q as [[-> Q]|[N Q]]; [discriminate|eauto].
      * intros j v k' Q. apply nth_upd in Q as [[-> Q]|[N Q]]; [|eauto]. injection Q as -> ->. eauto.
    + (* dead *) constructor; cbn [e_calls e_locks e_relays e_conns]; auto.
      * intros j v d Q F. apply nth_upd in Q as [[-> Q]|[N Q]]; [|eauto]. injection Q as -> ->. eapply (H2 j url EChecking); eauto.
      * assert (BK : forall j v d, nth_error (upd cs i (url, EDialing)) j = Some (v, d) -> holds d = true -> exists d', nth_error cs j = Some (v, d') /\ holds d' = true).
        { intros j v d Q F. apply nth_upd in Q as [[-> Q]|[N Q]]; [|eauto]. injection Q as -> ->. exists EChecking. auto. }
        intros j j' v v' d d' Q R F G E. destruct (BK _ _ _ Q F) as (e & Q' & F'). destruct (BK _ _ _ R G) as (e' & R' & G'). eauto.
      * intros l Q. destruct (H4 l Q) as (j & v & d & E & F & G). destruct (Nat.eq_dec i j) as [<-|N]; [|exists j, v, d; rewrite nth_upd_other by exact N; auto].
        exists i, url, EDialing. rewrite H in E. injection E as <- <-. split; [apply nth_upd_same, (nth_lt _ _ _ H)|auto].
      * intros j v Q. apply nth_upd in Q as [[-> Q]|[N Q]]; [|eauto]. injection Q as ->. intros k K. exact (H0 k (norm url) (H6 _ _ K) K).
      * intros j v k Q. apply nth_upd in Q as [[-> Q]|[N Q]]; [discriminate|eauto].
    + (* made *) assert (NH : forall j v d, i <> j -> nth_error cs j = Some (v, d) -> holds d = true -> lk url <> lk v).
      { intros j v d N Q F E. apply N. eapply (H3 i j url v EDialing d); eauto. }
      constructor; cbn [e_calls e_locks e_relays e_conns]; auto.
      * rewrite upd_length. exact H1.
      * intros j v d Q F. apply nth_upd in Q as [[-> Q]|[N Q]]; [injection Q as -> ->; discriminate F|]. rewrite nth_upd_other; eauto.
      * intros j j' v v' d d' Q R F G E. apply nth_upd in Q as [[-> Q]|[N Q]]; [injection Q as -> ->; discriminate F|]. apply nth_upd in R as [[-> R]|[N' R]]; [injection R as -> ->; discriminate G|]. eauto.
      * intros l Q. apply nth_upd in Q as [[_ Q]|[N Q]]; [discriminate|]. destruct (H4 l Q) as (j & v & d & E & F & G). exists j, v, d. split; [|auto]. rewrite nth_upd_other; [exact E|]. intros ->. rewrite H in E. injection E as <- <-. contradiction.
      * intros u k. rewrite assoc_mset. destruct (seqb_spec u (norm url)) as [->|N]; intro Q.
        -- injection Q as <-. exists true. apply nth_snoc_new.
        -- destruct (H5 u k Q) as [b Q']. exists b. apply nth_snoc_old, Q'.
      * intros k u Q. rewrite assoc_mset. apply nth_snoc in Q as [Q|[-> Q]].
        -- destruct (seqb_spec u (norm url)) as [->|N]; [|apply H6, Q]. exfalso. exact (H7 i url H k Q).
        -- injection Q as ->. rewrite (proj2 (seqb_eq _ _) eq_refl). reflexivity.
      * intros j v Q k K. apply nth_upd in Q as [[-> Q]|[N Q]]; [discriminate|]. apply nth_snoc in K as [K|[-> K]]; [exact (H7 j v Q k K)|]. injection K as K. apply (NH j v EDialing N Q eq_refl). rewrite K. reflexivity.
      * intros j v k Q. apply nth_upd in Q as [[-> Q]|[N Q]].
        -- injection Q as -> ->. exists true. apply nth_snoc_new.
        -- destruct (H8 j v k Q) as [b Q']. exists b. apply nth_snoc_old, Q'.
    + (* failed *) assert (NH : forall j v d, i <> j -> nth_error cs j = Some (v, d) -> holds d = true -> lk url <> lk v).
      { intros j v d N Q F E. apply N. eapply (H3 i j url v EDialing d); eauto. }
      constructor; cbn [e_calls e_locks e_relays e_conns]; auto.
      * rewrite upd_length. exact H1.
      * intros j v d Q F. apply nth_upd in Q as [[-> Q]|[N Q]]; [injection Q as -> ->; discriminate F|]. rewrite nth_upd_other; eauto.
      * intros j j' v v' d d' Q R F G E. apply nth_upd in Q as [[-> Q]|[N Q]]; [injection Q as -> ->; discriminate F|]. apply nth_upd in R as [[-> R]|[N' R]]; [injection R as -> ->; discriminate G|]. eauto.
      * intros l Q. apply nth_upd in Q as [[_ Q]|[N Q]]; [discriminate|]. destruct (H4 l Q) as (j & v & d & E & F & G). exists j, v, d. split; [|auto]. rewrite nth_upd_other; [exact E|]. intros ->. rewrite H in E. injection E as <- <-. contradiction.
      * intros j v Q. apply nth_upd in Q as [[-> Q]|[N Q]]; [discriminate|eauto].
      * intros j v k Q. apply nth_upd in Q as [[-> Q]|[N Q]]; [discriminate|eauto].
    + (* drop *) constructor; cbn [e_calls e_locks e_relays e_conns]; auto.
      * intros v j Q. destruct (H5 v j Q) as [b Q']. destruct (Nat.eq_dec k j) as [<-|N]; [|exists b; rewrite nth_upd_other; auto]. rewrite H in Q'. injection Q' as -> <-. exists false. apply nth_upd_same, (nth_lt _ _ _ H).
      * intros j v Q. apply nth_upd in Q as [[-> Q]|[N Q]]; [discriminate|eauto].
      * intros j v Q j' K. apply nth_upd in K as [[-> K]|[N K]]; [discriminate|]. exact (H7 j v Q j' K).
      * intros j v k' Q. destruct (H8 j v k' Q) as [b Q']. destruct (Nat.eq_dec k k') as [<-|N]; [|exists b; rewrite nth_upd_other; auto]. rewrite H in Q'. injection Q' as -> <-. exists false. apply nth_upd_same, (nth_lt _ _ _ H).
    + constructor; assumption.
Qed.

(** Work left. *)
Definition ecost (p : str * ecall) : nat := match snd p with EWaiting => 3 | EChecking => 2 | EDialing => 1 | EReturned _ => 0 end.
Definition e_weight (s : estate) : nat := c_total ecost (e_calls s).
Definition own_move (a : eaction) : bool := match a with ELock _ | ECheck _ | EDial _ _ => true | _ => false end.
Lemma ensure_weight a s s' : own_move a = true -> step a s = Some s' -> e_weight s' < e_weight s.
Proof.
  unfold e_weight. destruct a as [url|i|i|i ok|k|]; try discriminate; intros _ H; cbn [ensure_step] in H.
  - destruct (nth_error (e_calls s) i) as [[url []]|] eqn:E; try discriminate. destruct (nth_error (e_locks s) (lk url)) as [[]|]; try discriminate. injection H as <-. cbn [e_calls]. pose proof (c_total_upd ecost _ i (url, EChecking) _ E) as W. unfold with_call. cbn [ecost snd] in W. lia.
  - destruct (nth_error (e_calls s) i) as [[url []]|] eqn:E; try discriminate.
    assert (W : forall c, ecost (url, c) < 2 -> c_total ecost (upd (e_calls s) i (url, c)) < c_total ecost (e_calls s)) by (intros c L; pose proof (c_total_upd ecost _ i (url, c) _ E) as W; cbn [ecost snd] in W, L; lia).
    destruct (assoc (norm url) (e_relays s)) as [k|]; [destruct (nth_error (e_conns s) k) as [[u []]|]|]; injection H as <-; apply W; cbn; lia.
  - destruct (nth_error (e_calls s) i) as [[url []]|] eqn:E; try discriminate.
    assert (W : forall c, ecost (url, c) < 1 -> c_total ecost (upd (e_calls s) i (url, c)) < c_total ecost (e_calls s)) by (intros c L; pose proof (c_total_upd ecost _ i (url, c) _ E) as W; cbn [ecost snd] in W, L; lia).
    destruct ok; [destruct (e_open s); [|discriminate]|]; injection H as <-; apply W; cbn; lia.
Qed.
(** Somebody can move unless all have returned. *)
Lemma ensure_stuck s : EInv s -> (forall a, own_move a = true -> step a s = None) -> forall i url c, nth_error (e_calls s) i = Some (url, c) -> exists r, c = EReturned r.
Proof.
  intros I Q i url c H.
  assert (NH : forall j v d, nth_error (e_calls s) j = Some (v, d) -> holds d = false).
  { intros j v d E. destruct (holds d) eqn:F; [|reflexivity]. exfalso. destruct d; try discriminate F.
    - specialize (Q (ECheck j) eq_refl). cbn [ensure_step] in Q. rewrite E in Q. destruct (assoc (norm v) (e_relays s)) as [k|]; [destruct (nth_error (e_conns s) k) as [[u []]|]|]; discriminate.
    - specialize (Q (EDial j false) eq_refl). cbn [ensure_step] in Q. rewrite E in Q. discriminate. }
  destruct c as [| | |r]; [|specialize (NH _ _ _ H); discriminate|specialize (NH _ _ _ H); discriminate|exists r; reflexivity].
  exfalso. specialize (Q (ELock i) eq_refl). cbn [ensure_step] in Q. rewrite H in Q. destruct (nth_error (e_locks s) (lk url)) as [[]|] eqn:L.
  - destruct (ev_held s I _ L) as (j & v & d & E & F & _). rewrite (NH _ _ _ E) in F. discriminate.
  - discriminate.
  - apply nth_error_None in L. rewrite (ev_len s I) in L. pose proof (lock_bound url). lia.
Qed.
End Ensure.
