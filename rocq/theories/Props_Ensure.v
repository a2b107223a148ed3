(** One connection per relay in a pool: C112. For every normalization of urls and every hash of names. *)
From Verif Require Import Base Machine FilterModel StoreModel StoreProofs EnsureModel EnsureProofs.
Import ListNotations.

Section Ensure.
Variable norm : str -> str.
Variable memhash : str -> nat.
Notation step := (ensure_step norm memhash).
Notation reachable := (ensure_reachable norm memhash).

Definition dialing_for (s : estate) (i : nat) (name : str) : Prop := exists url, nth_error (e_calls s) i = Some (url, EDialing) /\ norm url = name.
Definition live (s : estate) (k : nat) (name : str) : Prop := nth_error (e_conns s) k = Some (name, true).
Definition result (s : estate) (i : nat) (url : str) (k : nat) : Prop := nth_error (e_calls s) i = Some (url, EReturned (Some k)).
(** ** Never two attempts at the same time for one relay, and never two live connections to it, nor an attempt while there is one. *)
Theorem C112_one_dial s i j name : reachable s -> dialing_for s i name -> dialing_for s j name -> i = j.
Proof. intros R (u & Hi & <-) (v & Hj & E). eapply (ev_excl _ _ s (ensure_inv _ _ s R) i j u v EDialing EDialing); eauto. rewrite E. reflexivity. Qed.
Theorem C112_one_connection s k l name : reachable s -> live s k name -> live s l name -> k = l.
Proof. intros R Hk Hl. pose proof (ensure_inv _ _ s R) as I. apply (ev_live _ _ s I) in Hk, Hl. congruence. Qed.
Theorem C112_no_needless_dial s i k name : reachable s -> dialing_for s i name -> ~ live s k name.
Proof. intros R (u & Hi & <-) L. exact (ev_dial _ _ s (ensure_inv _ _ s R) i u Hi k L). Qed.
(** ** What a call returns is a connection to the relay it asked for, alive at that moment; callers of one relay share it as long as it lives. *)
Theorem C112_result s i url k : reachable s -> result s i url k -> exists alive, nth_error (e_conns s) k = Some (norm url, alive).
Proof. intros R H. exact (ev_ret _ _ s (ensure_inv _ _ s R) i url k H). Qed.
Theorem C112_alive_when_returned a s s' i url k : reachable s -> step a s = Some s' -> ~ result s i url k -> result s' i url k -> live s' k (norm url).
Proof.
  intros R H N Q. pose proof (ensure_inv _ _ s R) as I. apply ensure_move in H. unfold result, live in *. destruct H; cbn [e_calls e_conns] in *.
  - apply nth_snoc in Q as [Q|[_ Q]]; [contradiction|discriminate].
  - apply nth_upd in Q as [[-> Q]|[_ Q]]; [discriminate|contradiction].
  - apply nth_upd in Q as [[-> Q]|[_ Q]]; [|contradiction]. injection Q as -> ->. destruct (ev_map _ _ _ I _ _ H0) as [b E]. cbn [e_conns] in E. congruence.
  - apply nth_upd in Q as [[-> Q]|[_ Q]]; [discriminate|contradiction].
  - apply nth_upd in Q as [[-> Q]|[_ Q]]; [|contradiction]. injection Q as -> ->. apply nth_snoc_new.
  - apply nth_upd in Q as [[-> Q]|[_ Q]]; [discriminate|contradiction].
  - contradiction.
  - contradiction.
Qed.
Theorem C112_shared s i j u v k l : reachable s -> result s i u k -> result s j v l -> norm u = norm v -> live s k (norm u) -> live s l (norm v) -> k = l.
Proof. intros R _ _ E L M. rewrite <- E in M. exact (C112_one_connection s k l (norm u) R L M). Qed.
(** A call that finds a live connection never dials: the connections stay as they were. *)
Theorem C112_reused s s' i url k : reachable s -> nth_error (e_calls s) i = Some (url, EChecking) -> live s k (norm url) -> step (ECheck i) s = Some s' -> result s' i url k /\ e_conns s' = e_conns s.
Proof.
  intros R C L H. pose proof (ev_live _ _ s (ensure_inv _ _ s R) k _ L) as A. cbn [ensure_step] in H. unfold live in L. rewrite C, A, L in H. injection H as <-. split; [|reflexivity].
  unfold result, with_call. cbn [e_calls]. apply nth_upd_same. eapply nth_lt. exact C.
Qed.
(** ** Every call returns: the calls' own moves come to an end, and while somebody has not returned one of them can be made. (A dial ends within 15 seconds, line 186.) *)
Theorem C112_moves_end a s s' : own_move a = true -> step a s = Some s' -> e_weight s' < e_weight s.
Proof. apply ensure_weight. Qed.
Theorem C112_no_deadlock s i url c : reachable s -> (forall a, own_move a = true -> step a s = None) -> nth_error (e_calls s) i = Some (url, c) -> exists r, c = EReturned r.
Proof. intros R Q. apply (ensure_stuck _ _ s (ensure_inv _ _ s R) Q). Qed.
(** ** After the pool is closed no connection is made. *)
Theorem C112_closed_pool s l s' : e_open s = false -> exec step l s = Some s' -> e_open s' = false /\ length (e_conns s') = length (e_conns s).
Proof.
  revert s. induction l as [|a l IH]; intros s O H; cbn [exec] in H.
  - injection H as <-. auto.
  - destruct (step a s) as [s1|] eqn:E; [|discriminate]. assert (K : e_open s1 = false /\ length (e_conns s1) = length (e_conns s)).
    { apply ensure_move in E. destruct E; cbn [e_open e_conns] in *; try (split; [assumption|reflexivity]); try discriminate.
      - rewrite upd_length. auto.
      - auto. }
    destruct K as [O1 L1]. rewrite <- L1. apply (IH s1 O1 H).
Qed.
(** ** Two relays with the same lock wait for each other: while one is dialed no call for the other can do anything, even if it has a live connection. *)
Theorem C112_waits s i j u v : reachable s -> lock_of memhash (norm u) = lock_of memhash (norm v) -> nth_error (e_calls s) i = Some (u, EDialing) -> nth_error (e_calls s) j = Some (v, EWaiting) ->
  step (ELock j) s = None /\ step (ECheck j) s = None /\ forall ok, step (EDial j ok) s = None.
Proof.
  intros R E Hi Hj. pose proof (ev_lock _ _ s (ensure_inv _ _ s R) i u EDialing Hi eq_refl) as L. cbn [ensure_step]. rewrite Hj, <- E, L. auto.
Qed.
(** Whatever the hash, among 51 relays there are two with the same lock; it takes one unreachable relay to block the other. *)
Lemma pigeon {X} (f : X -> nat) n : forall l, NoDup l -> (forall x, In x l -> f x < n) -> n < length l -> exists x y, In x l /\ In y l /\ x <> y /\ f x = f y.
Proof.
  intros l ND B L. assert (D : NoDup (map f l) \/ exists x y, In x l /\ In y l /\ x <> y /\ f x = f y).
  { clear B L. induction l as [|x l IH]; [left; apply NoDup_nil|]. inversion ND as [|? ? N1 N2]; subst. destruct (IH N2) as [D|(a & b & H1 & H2 & H3)]; [|right; exists a, b; cbn [In]; tauto].
    destruct (in_dec Nat.eq_dec (f x) (map f l)) as [Hi|Hi].
    - right. apply in_map_iff in Hi as (y & E & Hy). exists x, y. split; [left; reflexivity|]. split; [right; exact Hy|]. split; [intros ->; contradiction|congruence].
    - left. cbn [map]. apply NoDup_cons; assumption. }
  destruct D as [D|D]; [|exact D]. exfalso. assert (I : incl (map f l) (seq 0 n)) by (intros y Hy; apply in_map_iff in Hy as (x & <- & Hx); apply in_seq; specialize (B x Hx); lia).
  pose proof (NoDup_incl_length D I) as Q. rewrite map_length, seq_length in Q. lia.
Qed.
Theorem C112_relays_block_each_other names : NoDup names -> 50 < length names ->
  exists a b, In a names /\ In b names /\ a <> b /\
    (norm a = a -> norm b = b -> exists s, exec step [ECall b; ELock 0; ECheck 0; EDial 0 true; ECall a; ELock 1; ECheck 1; ECall b] ensure_init = Some s /\
       live s 0 b /\ step (ELock 2) s = None /\ step (ECheck 2) s = None /\ forall ok, step (EDial 2 ok) s = None).
Proof.
  intros ND L. change 50 with max_locks in L. destruct (pigeon (lock_of memhash) max_locks names ND) as (a & b & Ha & Hb & N & E); [intros x _; apply Nat.mod_upper_bound; discriminate|exact L|].
  exists a, b. repeat (split; [assumption|]). intros Na Nb.
  assert (BD : lock_of memhash b < max_locks) by (apply Nat.mod_upper_bound; discriminate).
  assert (F : nth_error (repeat false max_locks) (lock_of memhash b) = Some false) by (apply nth_error_repeat; exact BD).
  assert (BL : lock_of memhash b < length (repeat false max_locks)) by (rewrite repeat_length; exact BD).
  assert (BD2 : lock_of memhash b < length (upd (repeat false max_locks) (lock_of memhash b) true)) by (rewrite upd_length; exact BL).
  assert (BD3 : lock_of memhash b < length (upd (upd (repeat false max_locks) (lock_of memhash b) true) (lock_of memhash b) false)) by (rewrite !upd_length; exact BL).
  pose proof (nth_upd_same _ _ false BD2) as F1. pose proof (nth_upd_same _ _ true BD3) as F2.
  assert (SB : seqb a b = false) by (destruct (seqb_spec a b); congruence). 
  remember (repeat false max_locks) as r0 eqn:Er.
  unfold ensure_init. rewrite <- Er. cbn [exec ensure_step e_calls e_locks e_relays e_conns e_open app nth_error with_call unlocked upd assoc mset length]. rewrite ?Nb, ?F.
  cbn [exec ensure_step e_calls e_locks e_relays e_conns e_open app nth_error with_call upd assoc mset length]. unfold unlocked, with_call. cbn [exec ensure_step e_calls e_locks e_relays e_conns e_open app nth_error upd assoc mset length]. rewrite ?Na, ?Nb, ?E, ?F1.
  cbn [exec ensure_step e_calls e_locks e_relays e_conns e_open app nth_error upd assoc mset length]. unfold with_call. cbn [exec ensure_step e_calls e_locks e_relays e_conns e_open app nth_error upd assoc mset length]. rewrite ?Na, ?SB.
  eexists. split; [reflexivity|]. unfold live. cbn [e_calls e_locks e_relays e_conns nth_error]. rewrite ?Nb. split; [reflexivity|]. cbn [ensure_step app nth_error e_calls e_locks]. rewrite ?Nb, ?F2. auto.
Qed.
End Ensure.

(** A run: two callers of one relay, the first dials, the second gets its connection; it drops, the next dials again. *)
Example C112_example : exists s, exec (ensure_step (fun u => u) (@length ascii))
    [ECall (B "wss://a"); ECall (B "wss://a"); ELock 1; ECheck 1; EDial 1 true; ELock 0; ECheck 0; EDropped 0; ECall (B "wss://a"); ELock 2; ECheck 2; EDial 2 true] ensure_init = Some s /\
  result s 0 (B "wss://a") 0 /\ result s 1 (B "wss://a") 0 /\ result s 2 (B "wss://a") 1 /\ live s 1 (B "wss://a") /\ ~ live s 0 (B "wss://a").
Proof. eexists. split; [vm_compute; reflexivity|]. repeat split. unfold live. cbn. discriminate. Qed.
(** False: "when the pool dies everything dies" (line 185). After Close a connection is alive, and EnsureRelay still returns it. *)
Theorem C112_close_ends_all_refuted : exists s, exec (ensure_step (fun u => u) (@length ascii))
    [ECall (B "wss://a"); ELock 0; ECheck 0; EDial 0 true; EPoolClosed; ECall (B "wss://a"); ELock 1; ECheck 1] ensure_init = Some s /\
  e_open s = false /\ live s 0 (B "wss://a") /\ result s 1 (B "wss://a") 0.
Proof. eexists. split; [vm_compute; reflexivity|]. repeat split. Qed.
Example C112_names_example : let names := map (repeat "a"%char) (seq 0 51) in NoDup names /\ 50 < length names.
Proof.
  split; [|vm_compute; lia]. apply (NoDup_map_inv (@length ascii)). rewrite map_map, (map_ext _ (fun n => n)) by (intro n; apply repeat_length). rewrite map_id. apply seq_NoDup.
Qed.

Print Assumptions C112_one_dial.
Print Assumptions C112_one_connection.
Print Assumptions C112_no_needless_dial.
Print Assumptions C112_result.
Print Assumptions C112_alive_when_returned.
Print Assumptions C112_shared.
Print Assumptions C112_reused.
Print Assumptions C112_moves_end.
Print Assumptions C112_no_deadlock.
Print Assumptions C112_closed_pool.
Print Assumptions C112_waits.
Print Assumptions C112_relays_block_each_other.
Print Assumptions C112_close_ends_all_refuted.
