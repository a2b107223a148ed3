(** C120: a batch of lists is loaded until the network is done or everybody has given up. *)
From Verif Require Import Base Machine EventModel TagsModel FilterModel StoreModel ListsModel Props_Lists BatchLoadModel.
Import ListNotations.

Section Batch.
Variable atomic : bool.
Variable keys : list str.
Notation step := (batch_step atomic keys).
Notation start := (batch_init (length keys)).

Definition past (g : gphase) : bool := match g with GAsk | GWait => false | _ => true end.
Definition asking (g : gphase) : bool := match g with GAsk => true | _ => false end.
Definition middle (g : gphase) : bool := match g with GRead _ | GCheck => true | _ => false end.

Record BInv (b : batch) : Prop := mkBInv {
  v_len : length (b_go b) = length keys;
  v_ctx : length (b_ctx b) = length keys;
  v_wg : b_wg b = cnt asking (b_go b);
  v_past : forall i g, nth_error (b_go b) i = Some g -> past g = true -> ctx_done i b = true;
  v_wait : length keys <= b_waiting b + cnt past (b_go b);
  v_read : forall i v, nth_error (b_go b) i = Some (GRead v) -> length keys <= v - 1 + cnt past (b_go b);
  v_cancel : b_cancelled b = true -> cnt past (b_go b) = length keys;
  v_main : b_main b <> MWait -> cnt asking (b_go b) = 0;
  v_asked : b_main b <> MWait -> b_asked b = Some (relay_filters (b_added b));
  v_exact : atomic = true -> b_waiting b + cnt past (b_go b) = length keys /\ cnt middle (b_go b) = 0;
  v_exact2 : atomic = true -> keys <> [] -> cnt past (b_go b) = length keys -> b_cancelled b = true;
  v_ended : forall l, b_main b = MDone l -> b_closed b = true \/ (b_cancelled b = true /\ forall i, i < length keys -> nth i (b_ctx b) false = true);
  v_early : b_cancelled b = true -> b_done b = false -> forall i, i < length keys -> nth i (b_ctx b) false = true
}.
Lemma cnt_le {X} (f : X -> bool) l : cnt f l <= length l.
Proof. induction l as [|x l IH]; cbn [cnt length]; [lia|]. destruct (f x); lia. Qed.
Lemma cnt_full {X} (f : X -> bool) l : cnt f l = length l -> forall i x, nth_error l i = Some x -> f x = true.
Proof.
  induction l as [|y l IH]; intros H [|i] x N; try discriminate; cbn [cnt length nth_error] in *; pose proof (cnt_le f l).
  - injection N as ->. destruct (f x); [reflexivity|lia].
  - apply (IH ltac:(destruct (f y); lia) i x N).
Qed.
Lemma cnt_room {X} (f : X -> bool) l i x : nth_error l i = Some x -> f x = false -> cnt f l < length l.
Proof.
  revert i. induction l as [|y l IH]; intros [|i] N F; try discriminate; cbn [cnt length nth_error] in *; pose proof (cnt_le f l).
  - injection N as ->. rewrite F. lia.
  - specialize (IH i N F). destruct (f y); lia.
Qed.
Lemma nth_set (l : list bool) i j : nth j l false = true -> nth j (upd l i true) false = true.
Proof. revert i j. induction l as [|y l IH]; intros [|i] [|j] H; cbn in *; auto. Qed.
Lemma ctx_full b : (forall i g, nth_error (b_go b) i = Some g -> past g = true -> ctx_done i b = true) -> length (b_go b) = length keys -> cnt past (b_go b) = length keys -> b_done b = false ->
  forall i, i < length keys -> nth i (b_ctx b) false = true.
Proof.
  intros P L C D i HI. destruct (nth_error (b_go b) i) as [g|] eqn:N; [|apply nth_error_None in N; lia].
  assert (X : past g = true) by (apply (cnt_full past (b_go b)) with (i := i); [lia|exact N]). specialize (P i g N X). unfold ctx_done in P. rewrite D, orb_false_r in P. exact P.
Qed.
Lemma cnt_repeat {X} (f : X -> bool) x n : cnt f (repeat x n) = if f x then n else 0.
Proof. induction n as [|n IH]; cbn [repeat cnt]; [destruct (f x); reflexivity|]. rewrite IH. destruct (f x); lia. Qed.
Lemma nth_repeat_go n i g : nth_error (repeat GAsk n) i = Some g -> g = GAsk.
Proof. intro H. apply nth_error_In in H. apply repeat_spec in H. exact H. Qed.
Lemma binv_init : BInv start.
Proof.
  constructor; cbn [batch_init b_go b_ctx b_wg b_waiting b_cancelled b_main b_asked b_added]; rewrite ?repeat_length, ?cnt_repeat; cbn [past asking middle]; try reflexivity; try discriminate; try congruence; try lia; auto.
  - intros i g N P. apply nth_repeat_go in N. subst. discriminate.
  - intros i v N. apply nth_repeat_go in N. discriminate.
  - intros _ N E. destruct keys; [congruence|discriminate].
Qed.
Lemma binv_step a b b' : BInv b -> step a b = Some b' -> BInv b'.
Proof.
  intros [L1 L2 L3 L4 L5 L6 L7 L8 L9 L10 L11 L12 L13] H. destruct a; cbn [batch_step] in H.
  - (* BCtx *) destruct (Nat.ltb_spec i (length (b_ctx b))); [|discriminate]. injection H as <-.
    constructor; cbn [b_go b_ctx b_wg b_waiting b_cancelled b_main b_asked b_added b_closed]; auto.
    all: try (rewrite upd_length; exact L2).
    all: try (intros j g N P; specialize (L4 j g N P); unfold ctx_done, b_done in *; cbn [b_ctx b_main]; apply orb_true_iff in L4 as [Q|Q]; apply orb_true_iff; [left; apply nth_set; exact Q|right; exact Q]).
    all: try (intros l Q; destruct (L12 l Q) as [X|[X Y]]; [auto|right; split; [exact X|]]; intros j HJ; apply nth_set; auto).
    all: try (intros C D j HJ; apply nth_set; apply L13; auto).
  - (* BAsk *) destruct (nth_error (b_go b) i) as [[]|] eqn:N; try discriminate. destruct (nth_error keys i) as [k|] eqn:K; [|discriminate]. injection H as <-.
    pose proof (cnt_upd past _ _ GWait _ N) as U1. pose proof (cnt_upd asking _ _ GWait _ N) as U2. pose proof (cnt_upd middle _ _ GWait _ N) as U3. cbn [past asking middle] in *.
    pose proof (cnt_pos asking _ _ _ N eq_refl) as PA.
    constructor; cbn [b_go b_ctx b_wg b_waiting b_cancelled b_main b_asked b_added b_closed]; rewrite ?upd_length; auto; try lia.
    all: try (intros j g NJ P; apply nth_upd in NJ as [[<- ->]|[NE NJ]]; [discriminate|]; exact (L4 j g NJ P)).
    all: try (intros j v NJ; apply nth_upd in NJ as [[<- Q]|[NE NJ]]; [discriminate|]; specialize (L6 j v NJ); lia).
    all: try (intro C; specialize (L7 C); lia).
    all: try (intro M; specialize (L8 M); lia).
    all: try (intro M; specialize (L8 M); lia).
    all: try (intro A; specialize (L10 A); lia).
    all: try (intros A NK C; apply L11; auto; lia).
  - (* BDec *) destruct (nth_error (b_go b) i) as [[]|] eqn:N; try discriminate. destruct (ctx_done i b) eqn:CD; [|discriminate].
    pose proof (cnt_room past _ _ _ N eq_refl) as ROOM. destruct atomic eqn:AT; injection H as <-.
    + pose proof (cnt_upd past _ _ GEnd _ N) as U1. pose proof (cnt_upd asking _ _ GEnd _ N) as U2. pose proof (cnt_upd middle _ _ GEnd _ N) as U3. cbn [past asking middle] in *.
      destruct (L10 eq_refl) as [E1 E2].
      assert (P4 : forall j g, nth_error (upd (b_go b) i GEnd) j = Some g -> past g = true -> ctx_done j b = true).
      { intros j g NJ P. apply nth_upd in NJ as [[<- ->]|[NE NJ]]; [exact CD|exact (L4 j g NJ P)]. }
      constructor; unfold with_go; cbn [b_go b_ctx b_wg b_waiting b_cancelled b_main b_asked b_added b_closed]; rewrite ?upd_length; auto; try lia.
      all: try (intros j v NJ; apply nth_upd in NJ as [[<- Q]|[NE NJ]]; [discriminate|]; specialize (L6 j v NJ); lia).
      all: try (intro C; apply orb_true_iff in C as [C|C]; [specialize (L7 C); lia|]; apply Nat.eqb_eq in C; lia).
      all: try (intro M; specialize (L8 M); lia).
      all: try (intros _ NK C; apply orb_true_iff; right; apply Nat.eqb_eq; lia).
      all: try (intros l Q; assert (D : b_done b = true) by (unfold b_done; rewrite Q; reflexivity); destruct (L12 l Q) as [X|[X Y]]; [auto|right; split; [rewrite X; reflexivity|exact Y]]).
      all: try (intros C D j HJ; apply orb_true_iff in C as [C|C]; [apply L13; auto|]; apply Nat.eqb_eq in C).
        refine (ctx_full (with_go b i GEnd (b_waiting b - 1) (b_cancelled b)) _ _ _ _ j HJ); cbn [with_go b_go b_ctx]; [exact P4|rewrite upd_length; exact L1|lia|exact D].
    + pose proof (cnt_upd past _ _ (GRead (b_waiting b)) _ N) as U1. pose proof (cnt_upd asking _ _ (GRead (b_waiting b)) _ N) as U2. cbn [past asking middle] in *.
      constructor; unfold with_go; cbn [b_go b_ctx b_wg b_waiting b_cancelled b_main b_asked b_added b_closed]; rewrite ?upd_length; auto; try lia; try discriminate.
      all: try (intros j g NJ P; apply nth_upd in NJ as [[<- ->]|[NE NJ]]; [exact CD|exact (L4 j g NJ P)]).
      all: try (intros j v NJ; apply nth_upd in NJ as [[<- Q]|[NE NJ]]; [injection Q as ->; lia|]; specialize (L6 j v NJ); lia).
      all: try (intro C; specialize (L7 C); lia).
      all: try (intro M; specialize (L8 M); lia).
      all: congruence.
  - (* BWrite *) destruct (nth_error (b_go b) i) as [[]|] eqn:N; try discriminate. injection H as <-.
    pose proof (cnt_upd past _ _ GCheck _ N) as U1. pose proof (cnt_upd asking _ _ GCheck _ N) as U2. cbn [past asking middle] in *.
    assert (AT : atomic = false). { destruct atomic eqn:AT; [|reflexivity]. destruct (L10 eq_refl) as [_ E2]. pose proof (cnt_pos middle _ _ _ N eq_refl). lia. }
    constructor; unfold with_go; cbn [b_go b_ctx b_wg b_waiting b_cancelled b_main b_asked b_added b_closed]; rewrite ?upd_length; auto; try lia; try congruence.
    all: try (intros j g NJ P; apply nth_upd in NJ as [[<- ->]|[NE NJ]]; [exact (L4 i _ N eq_refl)|exact (L4 j g NJ P)]).
    all: try (specialize (L6 i v N); lia).
    all: try (intros j w NJ; apply nth_upd in NJ as [[<- Q]|[NE NJ]]; [discriminate|]; specialize (L6 j w NJ); lia).
    all: try (intro C; specialize (L7 C); lia).
    all: try (intro M; specialize (L8 M); lia).
  - (* BCheck *) destruct (nth_error (b_go b) i) as [[]|] eqn:N; try discriminate. injection H as <-.
    pose proof (cnt_upd past _ _ GEnd _ N) as U1. pose proof (cnt_upd asking _ _ GEnd _ N) as U2. cbn [past asking middle] in *.
    assert (AT : atomic = false). { destruct atomic eqn:AT; [|reflexivity]. destruct (L10 eq_refl) as [_ E2]. pose proof (cnt_pos middle _ _ _ N eq_refl). lia. }
    assert (P4 : forall j g, nth_error (upd (b_go b) i GEnd) j = Some g -> past g = true -> ctx_done j b = true).
    { intros j g NJ P. apply nth_upd in NJ as [[<- ->]|[NE NJ]]; [exact (L4 i _ N eq_refl)|exact (L4 j g NJ P)]. }
    pose proof (cnt_le past (b_go b)) as LE.
    constructor; unfold with_go; cbn [b_go b_ctx b_wg b_waiting b_cancelled b_main b_asked b_added b_closed]; rewrite ?upd_length; auto; try lia; try congruence.
    all: try (intros j w NJ; apply nth_upd in NJ as [[<- Q]|[NE NJ]]; [discriminate|]; specialize (L6 j w NJ); lia).
    all: try (intro C; apply orb_true_iff in C as [C|C]; [specialize (L7 C); lia|]; apply Nat.eqb_eq in C; lia).
    all: try (intro M; specialize (L8 M); lia).
    all: try (intros l Q; destruct (L12 l Q) as [X|[X Y]]; [auto|right; split; [rewrite X; reflexivity|exact Y]]).
    all: try (intros C D j HJ; apply orb_true_iff in C as [C|C]; [apply L13; auto|]; apply Nat.eqb_eq in C).
      refine (ctx_full (with_go b i GEnd (b_waiting b) (b_cancelled b)) _ _ _ _ j HJ); cbn [with_go b_go b_ctx]; [exact P4|rewrite upd_length; exact L1|lia|exact D].
  - (* BStart *) destruct (b_main b) eqn:M; try discriminate. destruct (b_wg b) eqn:W; [|discriminate]. injection H as <-.
    constructor; cbn [b_go b_ctx b_wg b_waiting b_cancelled b_main b_asked b_added b_closed]; auto; try discriminate.
    intros j g N P. specialize (L4 j g N P). unfold ctx_done, b_done in *. rewrite M in L4. cbn [b_ctx b_main]. exact L4.
    intros C D. apply L13; auto. unfold b_done. rewrite M. reflexivity.
  - (* BEvent *) destruct (b_main b) eqn:M; try discriminate. destruct (b_closed b) eqn:CL; [discriminate|]. injection H as <-.
    constructor; cbn [b_go b_ctx b_wg b_waiting b_cancelled b_main b_asked b_added b_closed]; auto; try discriminate; try (intros _; apply L8; discriminate); try (intros _; apply L9; discriminate).
    intros j g N P. specialize (L4 j g N P). unfold ctx_done, b_done in *. rewrite M in L4. cbn [b_ctx b_main]. exact L4.
    intros C D. apply L13; auto. unfold b_done. rewrite M. reflexivity.
  - (* BClose *) destruct (b_main b) eqn:M; try discriminate. injection H as <-.
    constructor; cbn [b_go b_ctx b_wg b_waiting b_cancelled b_main b_asked b_added b_closed]; auto; try (intros _; apply L8; congruence); try (intros _; apply L9; congruence).
    intros j g N P. specialize (L4 j g N P). unfold ctx_done, b_done in *. rewrite M in L4. cbn [b_ctx b_main]. exact L4.
    intros C D. apply L13; auto. unfold b_done. rewrite M. reflexivity.
  - (* BReturn *) destruct (b_main b) eqn:M; try discriminate. destruct (b_closed b || b_cancelled b) eqn:CC; [|discriminate]. injection H as <-.
    constructor; cbn [b_go b_ctx b_wg b_waiting b_cancelled b_main b_asked b_added b_closed]; auto; try (intros _; apply L8; congruence); try (intros _; apply L9; congruence).
    all: try (intros j g N P; unfold ctx_done, b_done; cbn [b_main]; apply orb_true_r).
    all: try (intros l0 _; apply orb_true_iff in CC as [CC|CC]; [auto|right; split; [exact CC|]]; apply L13; [exact CC|]; unfold b_done; rewrite M; reflexivity).
    all: try (intros _ D; discriminate D).
Qed.
Lemma binv_reached b : reaches step start b -> BInv b.
Proof. apply (invariant step BInv); [exact binv_init|intros a s s' I H; eapply binv_step; eassumption]. Qed.

(** ** C120 *)
(** It goes on until the network is done or every single caller has given up: one caller's leaving does not end the others' load. *)
Theorem C120_no_early_end b l : reaches step start b -> b_main b = MDone l -> b_closed b = true \/ forall i, i < length keys -> nth i (b_ctx b) false = true.
Proof. intros R M. destruct (v_ended b (binv_reached b R) l M) as [X|[_ X]]; auto. Qed.
(** The program's own steps. *)
Definition binternal (a : baction) : Prop := match a with BDec _ | BWrite _ | BCheck _ | BStart | BReturn => True | _ => False end.
Definition bquiet (b : batch) : Prop := forall a, binternal a -> step a b = None.
Definition g_weight (g : gphase) : nat := match g with GAsk => 4 | GWait => 3 | GRead _ => 2 | GCheck => 1 | GEnd => 0 end.
Definition b_weight (b : batch) : nat := fold_right (fun g n => g_weight g + n) 0 (b_go b) + match b_main b with MWait => 2 | MLoop _ => 1 | MDone _ => 0 end.
Lemma g_sum_upd l i g g' : nth_error l i = Some g -> fold_right (fun g n => g_weight g + n) 0 (upd l i g') + g_weight g = fold_right (fun g n => g_weight g + n) 0 l + g_weight g'.
Proof. revert i. induction l as [|x l IH]; intros [|i] H; try discriminate; cbn [upd fold_right nth_error] in *; [injection H as ->; lia|]. specialize (IH i H). lia. Qed.
Theorem C120_terminates a b b' : binternal a -> step a b = Some b' -> b_weight b' < b_weight b.
Proof.
  intros IA H. unfold b_weight. destruct a; try contradiction; cbn [batch_step] in H.
  - destruct (nth_error (b_go b) i) as [[]|] eqn:N; try discriminate. destruct (ctx_done i b); [|discriminate].
    destruct atomic; injection H as <-; cbn [with_go b_go b_main].
    + pose proof (g_sum_upd _ _ _ GEnd N). cbn [g_weight] in *. lia.
    + pose proof (g_sum_upd _ _ _ (GRead (b_waiting b)) N). cbn [g_weight] in *. lia.
  - destruct (nth_error (b_go b) i) as [[]|] eqn:N; try discriminate. injection H as <-; cbn [with_go b_go b_main]. pose proof (g_sum_upd _ _ _ GCheck N). cbn [g_weight] in *. lia.
  - destruct (nth_error (b_go b) i) as [[]|] eqn:N; try discriminate. injection H as <-; cbn [with_go b_go b_main]. pose proof (g_sum_upd _ _ _ GEnd N). cbn [g_weight] in *. lia.
  - destruct (b_main b) eqn:M; try discriminate. destruct (b_wg b); [|discriminate]. injection H as <-. cbn [b_go b_main]. lia.
  - destruct (b_main b) eqn:M; try discriminate. destruct (b_closed b || b_cancelled b); [|discriminate]. injection H as <-. cbn [b_go b_main]. lia.
Qed.
(** The network done, nothing left to do: it has returned. *)
Theorem C120_ends_with_network b : reaches step start b -> bquiet b -> b_closed b = true -> b_main b <> MWait -> exists l, b_main b = MDone l.
Proof. intros R Q C M. destruct (b_main b) eqn:E; [congruence| |eauto]. specialize (Q BReturn Logic.I). cbn [batch_step] in Q. rewrite E, C in Q. discriminate. Qed.
(** All relays found, everybody gone, nothing left to do: the first loader has returned, and nothing of it stays behind. *)
Lemma quiet_past b : BInv b -> bquiet b -> cnt asking (b_go b) = 0 -> (forall i, i < length keys -> ctx_done i b = true) -> cnt past (b_go b) = length keys /\ forall g, In g (b_go b) -> g = GEnd.
Proof.
  intros I Q A D. assert (E : forall g, In g (b_go b) -> g = GEnd).
  { intros g HG. pose proof (cnt_zero asking _ A g HG) as NA. apply In_nth_error in HG as (i & N). assert (LI : i < length keys) by (rewrite <- (v_len b I); apply nth_error_Some; congruence).
    destruct g; try discriminate; try reflexivity.
    - specialize (Q (BDec i) Logic.I). cbn [batch_step] in Q. rewrite N, (D i LI) in Q. destruct atomic; discriminate.
    - specialize (Q (BWrite i) Logic.I). cbn [batch_step] in Q. rewrite N in Q. discriminate.
    - specialize (Q (BCheck i) Logic.I). cbn [batch_step] in Q. rewrite N in Q. discriminate. }
  split; [|exact E]. rewrite <- (v_len b I). revert E. clear. induction (b_go b) as [|g l IH]; intro E; [reflexivity|]. cbn [cnt length]. rewrite (E g (or_introl eq_refl)). cbn [past]. rewrite IH; [reflexivity|]. intros x HX. apply E. right. exact HX.
Qed.
Theorem C120_ends_when_all_gone b : atomic = true -> keys <> [] -> reaches step start b -> bquiet b -> (forall i, nth_error (b_go b) i <> Some GAsk) -> (forall i, i < length keys -> nth i (b_ctx b) false = true) ->
  exists l, b_main b = MDone l.
Proof.
  intros AT NK R Q A D. pose proof (binv_reached b R) as I.
  assert (Z : cnt asking (b_go b) = 0).
  { destruct (cnt asking (b_go b)) eqn:C; [reflexivity|]. exfalso. assert (X : exists i, nth_error (b_go b) i = Some GAsk); [|destruct X as (i & X); exact (A i X)].
    clear -C. revert n C. induction (b_go b) as [|g l IH]; intros n C; [discriminate|]. destruct g; try (destruct (IH n C) as (i & X); exists (S i); exact X). exists 0. reflexivity. }
  destruct (quiet_past b I Q Z) as [P _]; [intros i HI; unfold ctx_done; rewrite (D i HI); reflexivity|].
  pose proof (v_exact2 b I AT NK P) as CA. destruct (b_main b) eqn:M; [|specialize (Q BReturn Logic.I); cbn [batch_step] in Q; rewrite M, CA, orb_true_r in Q; discriminate|eauto].
  specialize (Q BStart Logic.I). cbn [batch_step] in Q. rewrite M in Q. pose proof (v_wg b I) as W. rewrite Z in W. rewrite W in Q. discriminate.
Qed.
Theorem C120_cleans_up b l : atomic = true -> keys <> [] -> reaches step start b -> bquiet b -> b_main b = MDone l -> b_cancelled b = true /\ forall g, In g (b_go b) -> g = GEnd.
Proof.
  intros AT NK R Q M. pose proof (binv_reached b R) as I. assert (Z : cnt asking (b_go b) = 0) by (apply (v_main b I); congruence).
  destruct (quiet_past b I Q Z) as [P E]; [intros i HI; unfold ctx_done, b_done; rewrite M; apply orb_true_r|]. split; [exact (v_exact2 b I AT NK P)|exact E].
Qed.
(** The second loader, whose counter is a plain int, ends too as long as no two of its goroutines are between reading and writing the
    counter at once: the runs of the machine below. *)
Definition reading (g : gphase) : bool := match g with GRead _ => true | _ => false end.
Definition written (g : gphase) : bool := match g with GCheck | GEnd => true | _ => false end.
Definition checking (g : gphase) : bool := match g with GCheck => true | _ => false end.
Definition in_turn (a : baction) (b : batch) : option batch :=
  match a with BDec _ => if existsb reading (b_go b) then None else step a b | _ => step a b end.
Lemma in_turn_step a b b' : in_turn a b = Some b' -> step a b = Some b'.
Proof. unfold in_turn. destruct a; auto. destruct (existsb reading (b_go b)); [discriminate|auto]. Qed.
Lemma in_turn_reaches b : reaches in_turn start b -> reaches step start b.
Proof.
  intros (l & H). exists l. revert H. generalize start. induction l as [|a l IH]; intros s H; [exact H|]. cbn [exec] in *.
  destruct (in_turn a s) as [s1|] eqn:E; [|discriminate]. rewrite (in_turn_step _ _ _ E). auto.
Qed.
Definition TInv (b : batch) : Prop :=
  b_waiting b + cnt written (b_go b) = length (b_go b) /\ cnt reading (b_go b) <= 1 /\
  (forall i v, nth_error (b_go b) i = Some (GRead v) -> v = b_waiting b) /\
  (b_waiting b = 0 -> b_go b <> [] -> b_cancelled b = true \/ 0 < cnt checking (b_go b)).
Lemma tinv_step a b b' : atomic = false -> TInv b -> in_turn a b = Some b' -> TInv b'.
Proof.
  intros AT (T1 & T2 & T3 & T4) H. unfold in_turn in H. destruct a; cbn [batch_step] in H; rewrite ?AT in H.
  all: try (repeat match type of H with context[match ?x with _ => _ end] => destruct x eqn:?; try discriminate end; injection H as <-; unfold TInv; cbn [b_go b_waiting b_cancelled]; tauto).
  - destruct (nth_error (b_go b) i) as [[]|] eqn:N; try discriminate. destruct (nth_error keys i); [|discriminate]. injection H as <-.
    pose proof (cnt_upd written _ _ GWait _ N) as U1. pose proof (cnt_upd reading _ _ GWait _ N) as U2. pose proof (cnt_upd checking _ _ GWait _ N) as U3. cbn [written reading checking] in *.
    unfold TInv; cbn [b_go b_waiting b_cancelled]; rewrite ?upd_length. repeat split; try lia.
    + intros j v NJ. apply nth_upd in NJ as [[<- ?]|[NE NJ]]; [discriminate|eauto].
    + intros W _. destruct T4 as [T4|T4]; [exact W|intro Q; rewrite Q in N; destruct i; discriminate|auto|right; lia].
  - destruct (existsb reading (b_go b)) eqn:X; [discriminate|]. destruct (nth_error (b_go b) i) as [[]|] eqn:N; try discriminate. destruct (ctx_done i b); [|discriminate]. injection H as <-.
    assert (Z : cnt reading (b_go b) = 0). { clear -X. induction (b_go b) as [|g l IH]; [reflexivity|]. cbn [existsb cnt] in *. apply orb_false_iff in X as [-> X]. rewrite (IH X). reflexivity. }
    pose proof (cnt_upd written _ _ (GRead (b_waiting b)) _ N) as U1. pose proof (cnt_upd reading _ _ (GRead (b_waiting b)) _ N) as U2. pose proof (cnt_upd checking _ _ (GRead (b_waiting b)) _ N) as U3. cbn [written reading checking] in *.
    unfold TInv, with_go; cbn [b_go b_waiting b_cancelled]; rewrite ?upd_length. repeat split; try lia.
    + intros j v NJ. apply nth_upd in NJ as [[<- Q]|[NE NJ]]; [congruence|eauto].
    + intros W _. destruct T4 as [T4|T4]; [exact W|intro Q; rewrite Q in N; destruct i; discriminate|auto|right; lia].
  - destruct (nth_error (b_go b) i) as [[]|] eqn:N; try discriminate. injection H as <-. pose proof (T3 _ _ N) as E. subst v.
    pose proof (cnt_upd written _ _ GCheck _ N) as U1. pose proof (cnt_upd reading _ _ GCheck _ N) as U2. pose proof (cnt_upd checking _ _ GCheck _ N) as U3. cbn [written reading checking] in *.
    pose proof (cnt_room written _ _ _ N eq_refl) as ROOM.
    unfold TInv, with_go; cbn [b_go b_waiting b_cancelled]; rewrite ?upd_length. repeat split; try lia.
    intros j v NJ. assert (R : 0 < cnt reading (upd (b_go b) i GCheck)) by (eapply cnt_pos; [exact NJ|reflexivity]). lia.
  - destruct (nth_error (b_go b) i) as [[]|] eqn:N; try discriminate. injection H as <-.
    pose proof (cnt_upd written _ _ GEnd _ N) as U1. pose proof (cnt_upd reading _ _ GEnd _ N) as U2. cbn [written reading checking] in *.
    unfold TInv, with_go; cbn [b_go b_waiting b_cancelled]; rewrite ?upd_length. repeat split; try lia.
    intros j v NJ. apply nth_upd in NJ as [[<- Q]|[NE NJ]]; [discriminate|eauto].
Qed.
Lemma tinv_reached b : atomic = false -> reaches in_turn start b -> TInv b.
Proof.
  intro AT. apply (invariant in_turn TInv); [|intros a s s' I H; eapply tinv_step; eassumption].
  unfold TInv. cbn [batch_init b_go b_waiting b_cancelled]. rewrite !cnt_repeat, repeat_length. cbn [written reading checking]. repeat split; try lia.
  - intros i v N. apply nth_repeat_go in N. discriminate.
  - intros Z N. rewrite Z in N. contradiction.
Qed.
(** Full statement: it always does. False, C120_counter_lost_refuted below. *)
Theorem C120_addressable_ends_partial b : atomic = false -> keys <> [] -> reaches in_turn start b -> bquiet b -> (forall i, nth_error (b_go b) i <> Some GAsk) -> (forall i, i < length keys -> nth i (b_ctx b) false = true) ->
  (exists l, b_main b = MDone l) /\ b_cancelled b = true /\ forall g, In g (b_go b) -> g = GEnd.
Proof.
  intros AT NK R Q A D. pose proof (binv_reached b (in_turn_reaches b R)) as I. destruct (tinv_reached b AT R) as (T1 & T2 & T3 & T4).
  assert (Z : cnt asking (b_go b) = 0).
  { destruct (cnt asking (b_go b)) eqn:C; [reflexivity|]. exfalso. assert (X : exists i, nth_error (b_go b) i = Some GAsk); [|destruct X as (i & X); exact (A i X)].
    clear -C. revert n C. induction (b_go b) as [|g l IH]; intros n C; [discriminate|]. destruct g; try (destruct (IH n C) as (i & X); exists (S i); exact X). exists 0. reflexivity. }
  destruct (quiet_past b I Q Z) as [P E]; [intros i HI; unfold ctx_done; rewrite (D i HI); reflexivity|].
  assert (W : cnt written (b_go b) = length (b_go b) /\ cnt checking (b_go b) = 0).
  { revert E. clear. induction (b_go b) as [|g l IH]; intro E; [auto|]. cbn [cnt length]. rewrite (E g (or_introl eq_refl)). cbn [written checking]. destruct IH as [-> ->]; [intros x HX; apply E; right; exact HX|auto]. }
  destruct W as [W1 W2]. pose proof (v_len b I) as L.
  assert (CA : b_cancelled b = true).
  { destruct T4 as [T4|T4]; [lia| |exact T4|lia]. intro Q0. rewrite Q0 in L. destruct keys; [congruence|discriminate]. }
  split; [|split; [exact CA|exact E]]. destruct (b_main b) eqn:M; [|specialize (Q BReturn Logic.I); cbn [batch_step] in Q; rewrite M, CA, orb_true_r in Q; discriminate|eauto].
  specialize (Q BStart Logic.I). cbn [batch_step] in Q. rewrite M in Q. pose proof (v_wg b I) as V. rewrite Z in V. rewrite V in Q. discriminate.
Qed.
(** What is asked: every key was looked up, and each relay gets one filter, for exactly the keys that have it among their relays, whatever the order of the goroutines. *)
Theorem C120_asked l b fs : exec step l start = Some b -> b_asked b = Some fs ->
  (forall i, i < length keys -> exists rs, In (BAsk i rs) l) /\ NoDup (map fst fs) /\
  forall r pk, (exists authors, assoc r fs = Some authors /\ In pk authors) <-> exists i rs, In (BAsk i rs) l /\ nth_error keys i = Some pk /\ In r rs.
Proof.
  intros H A.
  assert (R : reaches step start b) by (exists l; exact H). pose proof (binv_reached b R) as I.
  assert (J : forall l b, exec step l start = Some b -> (forall pk rs, In (pk, rs) (b_added b) <-> exists i, In (BAsk i rs) l /\ nth_error keys i = Some pk) /\ (forall i g, nth_error (b_go b) i = Some g -> g <> GAsk -> exists rs, In (BAsk i rs) l) /\ (b_asked b <> None -> b_main b <> MWait)).
  { clear. induction l as [|a l IH] using rev_ind; intros b H.
    - cbn in H. injection H as <-. cbn. split; [|split; [|congruence]].
      + intros pk rs. split; [intros []|intros (i & [] & _)].
      + intros i g N NG. apply nth_repeat_go in N. congruence.
    - rewrite exec_app in H. destruct (exec step l start) as [b1|] eqn:E1; [|discriminate]. cbn [exec] in H. destruct (step a b1) as [b2|] eqn:E2; [|discriminate]. injection H as <-.
      destruct (IH b1 eq_refl) as (J1 & J2 & J3).
      assert (OLD : forall (P : nat -> Prop) rs, (exists i, In (BAsk i rs) l /\ P i) -> exists i, In (BAsk i rs) (l ++ [a]) /\ P i) by (intros P rs (i & X & Y); exists i; split; [apply in_or_app; auto|exact Y]).
      assert (GEN : b_added b2 = b_added b1 -> (forall i rs, a <> BAsk i rs) -> forall pk rs, In (pk, rs) (b_added b2) <-> exists i, In (BAsk i rs) (l ++ [a]) /\ nth_error keys i = Some pk).
      { intros EA NA pk rs. rewrite EA, J1. split; [apply OLD|]. intros (i & X & Y). exists i. split; [|exact Y]. apply in_app_or in X as [X|[X|[]]]; [exact X|]. exfalso. exact (NA _ _ X). }
      assert (GO : forall g', (exists i y, nth_error (b_go b1) i = Some y /\ y <> GAsk /\ b_go b2 = upd (b_go b1) i g') \/ b_go b2 = b_go b1 -> forall i g, nth_error (b_go b2) i = Some g -> g <> GAsk -> exists rs, In (BAsk i rs) (l ++ [a])).
      { intros g' D i g N NG. assert (X : exists g0, nth_error (b_go b1) i = Some g0 /\ g0 <> GAsk).
        { destruct D as [(j & y & NJ & NY & EG)|EG]; [|rewrite EG in N; eauto]. rewrite EG in N. apply nth_upd in N as [[<- _]|[_ N]]; eauto. }
        destruct X as (g0 & N0 & NG0). destruct (J2 i g0 N0 NG0) as (rs & X). exists rs. apply in_or_app. auto. }
      destruct a; cbn [batch_step] in E2.
      + destruct (i <? length (b_ctx b1))%nat; [|discriminate]. injection E2 as <-. split; [apply GEN; [reflexivity|discriminate]|split; [apply (GO GEnd); right; reflexivity|exact J3]].
      + destruct (nth_error (b_go b1) i) as [[]|] eqn:N; try discriminate. destruct (nth_error keys i) as [k|] eqn:K; [|discriminate]. injection E2 as <-. cbn [b_added b_go b_asked b_main]. split; [|split; [|exact J3]].
        * intros pk rs. rewrite in_app_iff, J1. split.
          -- intros [X|[X|[]]]; [apply OLD; exact X|]. injection X as <- <-. exists i. split; [apply in_or_app; right; left; reflexivity|exact K].
          -- intros (j & X & Y). apply in_app_or in X as [X|[X|[]]]; [left; eauto|]. injection X as <- <-. right. left. congruence.
        * intros j g NJ NG. apply nth_upd in NJ as [[<- ->]|[_ NJ]]; [exists relays; apply in_or_app; right; left; reflexivity|]. destruct (J2 j g NJ NG) as (rs & X). exists rs. apply in_or_app. auto.
      + destruct (nth_error (b_go b1) i) as [[]|] eqn:N; try discriminate. destruct (ctx_done i b1); [|discriminate].
        destruct atomic; injection E2 as <-; (split; [apply GEN; [reflexivity|discriminate]|split; [|exact J3]]); [apply (GO GEnd)|apply (GO (GRead (b_waiting b1)))]; left; exists i, GWait; (split; [exact N|split; [discriminate|reflexivity]]).
      + destruct (nth_error (b_go b1) i) as [[]|] eqn:N; try discriminate. injection E2 as <-. split; [apply GEN; [reflexivity|discriminate]|split; [|exact J3]]. apply (GO GCheck). left. exists i. eexists. split; [exact N|split; [discriminate|reflexivity]].
      + destruct (nth_error (b_go b1) i) as [[]|] eqn:N; try discriminate. injection E2 as <-. split; [apply GEN; [reflexivity|discriminate]|split; [|exact J3]]. apply (GO GEnd). left. exists i. eexists. split; [exact N|split; [discriminate|reflexivity]].
      + destruct (b_main b1); try discriminate. destruct (b_wg b1); [|discriminate]. injection E2 as <-. split; [apply GEN; [reflexivity|discriminate]|split; [apply (GO GEnd); right; reflexivity|discriminate]].
      + destruct (b_main b1); try discriminate. destruct (b_closed b1); [discriminate|]. injection E2 as <-. split; [apply GEN; [reflexivity|discriminate]|split; [apply (GO GEnd); right; reflexivity|discriminate]].
      + destruct (b_main b1) eqn:M1; try discriminate. injection E2 as <-. split; [apply GEN; [reflexivity|discriminate]|split; [apply (GO GEnd); right; reflexivity|cbn [b_main]; congruence]].
      + destruct (b_main b1); try discriminate. destruct (b_closed b1 || b_cancelled b1); [|discriminate]. injection E2 as <-. split; [apply GEN; [reflexivity|discriminate]|split; [apply (GO GEnd); right; reflexivity|discriminate]]. }
  destruct (J l b H) as (J1 & J2 & J3). assert (M : b_main b <> MWait) by (apply J3; congruence). rewrite (v_asked b I M) in A. injection A as <-.
  pose proof (v_main b I M) as Z. split.
  { intros i HI. destruct (nth_error (b_go b) i) as [g|] eqn:N; [|apply nth_error_None in N; rewrite (v_len b I) in N; lia]. apply (J2 i g N). intros ->. pose proof (cnt_zero asking _ Z GAsk (nth_error_In _ _ N)). discriminate. }
  destruct (C61_one_filter_per_relay (b_added b)) as [ND AU]. split; [exact ND|]. intros r pk. specialize (AU r).
  assert (X : In pk (authors_for r (b_added b)) <-> exists i rs, In (BAsk i rs) l /\ nth_error keys i = Some pk /\ In r rs).
  { unfold authors_for. rewrite in_flat_map. split.
    - intros ([k rs] & HI & HM). apply in_map_iff in HM as (y & <- & HY). apply filter_In in HY as [HY HE]. apply seqb_eq in HE. subst y. apply J1 in HI as (i & HI & K). exists i, rs. auto.
    - intros (i & rs & HI & K & HR). exists (pk, rs). split; [apply J1; eauto|]. apply in_map_iff. exists r. split; [reflexivity|]. apply filter_In. split; [exact HR|apply seqb_refl]. }
  rewrite <- X, <- AU. destruct (assoc r (relay_filters (b_added b))) as [l0|].
  - split; [intros (au & Q & HI); injection Q as <-; exact HI|eauto].
  - split; [intros (au & Q & _); discriminate|intros []].
Qed.
End Batch.

(** What comes back is made of all that was received and of nothing else ([first_newest], Props_Lists.v): for each key the newest, the first of several. *)
Definition got (l : list baction) : list event := flat_map (fun a => match a with BEvent e => [e] | _ => [] end) l.
Theorem C120_result atomic keys l b : exec (batch_step atomic keys) l (batch_init (length keys)) = Some b ->
  (forall res, repl_result b = Some res -> forall pk, match assoc pk res with
     | Some e => first_newest (fun x => ev_pubkey x = pk) (got l) e
     | None => forall e, In e (got l) -> ev_pubkey e <> pk end) /\
  (forall res, addr_result b = Some res -> forall pk, let m := match assoc pk res with Some m => m | None => [] end in
     NoDup (map (fun e => get_d (ev_tags e)) m) /\
     (forall e, In e m <-> first_newest (fun x => ev_pubkey x = pk /\ get_d (ev_tags x) = get_d (ev_tags e)) (got l) e) /\
     (forall x, In x (got l) -> ev_pubkey x = pk -> exists e, In e m /\ get_d (ev_tags e) = get_d (ev_tags x))) /\
  (forall received, b_main b = MDone received -> received = got l).
Proof.
  intro H. assert (G : match b_main b with MWait => got l = [] | MLoop r | MDone r => r = got l end).
  { revert b H. induction l as [|a l IH] using rev_ind; intros b H; [cbn in H; injection H as <-; reflexivity|].
    rewrite exec_app in H. destruct (exec (batch_step atomic keys) l _) as [b1|] eqn:E1; [|discriminate]. specialize (IH b1 eq_refl). cbn [exec] in H. destruct (batch_step atomic keys a b1) as [b2|] eqn:E2; [|discriminate]. injection H as <-.
    assert (GA : got (l ++ [a]) = got l ++ got [a]) by (unfold got; apply flat_map_app). rewrite GA.
    destruct a; cbn [batch_step] in E2; cbn [got flat_map app]; rewrite ?app_nil_r;
      repeat match type of E2 with context[match ?x with _ => _ end] => destruct x eqn:?; try discriminate end;
      injection E2 as <-; cbn [with_go b_main]; repeat match goal with Q : b_main _ = _ |- _ => rewrite Q in * end; auto; congruence. }
  unfold repl_result, addr_result. destruct (b_main b) as [| |r]; (split; [|split]); intros; try discriminate; subst.
  - injection H0 as <-. apply C61_replaceable_newest.
  - injection H0 as <-. apply C61_addressable_newest.
  - congruence.
Qed.

Definition two : list str := [B "alice"; B "bob"].
Definition batch_demo : list baction :=
  [BAsk 1 [B "r1"; B "r2"]; BCtx 0; BAsk 0 [B "r2"]; BStart; BDec 0; BEvent (mkEvent (B "1") (B "bob") 5 3 [] [] []); BCtx 1; BDec 1; BReturn].
Ltac bquiet_all := let a := fresh in let H := fresh in intros a H; destruct a as [|?i ?rs|?i|?i|?i| | | |]; try contradiction; try reflexivity; destruct i as [|[|[|i]]]; reflexivity.
Example C120_demo : exists b, exec (batch_step true two) batch_demo (batch_init 2) = Some b /\ b_main b = MDone [mkEvent (B "1") (B "bob") 5 3 [] [] []] /\ bquiet true two b /\
  b_asked b = Some [(B "r1", [B "bob"]); (B "r2", [B "bob"; B "alice"])] /\ b_cancelled b = true /\ b_closed b = false /\ (forall i, nth_error (b_go b) i <> Some GAsk) /\ (forall i, i < 2 -> nth i (b_ctx b) false = true).
Proof.
  eexists. split; [vm_compute; reflexivity|]. split; [reflexivity|]. split; [bquiet_all|]. repeat split.
  - intros [|[|[|i]]]; discriminate.
  - intros [|[|i]] H; [reflexivity|reflexivity|lia].
Qed.
Example C120_in_turn_demo : exists b, exec (in_turn false two) [BAsk 0 []; BAsk 1 []; BStart; BCtx 0; BCtx 1; BDec 0; BWrite 0; BDec 1; BCheck 0; BWrite 1; BCheck 1; BReturn] (batch_init 2) = Some b /\ b_main b = MDone [] /\ b_cancelled b = true /\ bquiet false two b.
Proof. eexists. split; [vm_compute; reflexivity|]. split; [reflexivity|]. split; [reflexivity|bquiet_all]. Qed.
(** Full statement: the second loader, too, returns when everybody has given up. False: its counter is a plain int, two goroutines
    can read it at the same time, and then it never gets to nothing. It waits for the network, with nobody waiting for it. *)
Theorem C120_counter_lost_refuted : exists l b, exec (batch_step false two) l (batch_init 2) = Some b /\ bquiet false two b /\ (forall i, i < 2 -> nth i (b_ctx b) false = true) /\
  (forall g, In g (b_go b) -> g = GEnd) /\ b_main b = MLoop [] /\ b_cancelled b = false.
Proof.
  exists [BAsk 0 []; BAsk 1 []; BStart; BCtx 0; BCtx 1; BDec 0; BDec 1; BWrite 0; BWrite 1; BCheck 0; BCheck 1].
  eexists. split; [vm_compute; reflexivity|]. split; [bquiet_all|]. split; [intros [|[|i]] H; [reflexivity|reflexivity|lia]|]. split; [cbn; intuition congruence|]. split; reflexivity.
Qed.

Print Assumptions C120_no_early_end.
Print Assumptions C120_terminates.
Print Assumptions C120_ends_with_network.
Print Assumptions C120_ends_when_all_gone.
Print Assumptions C120_cleans_up.
Print Assumptions C120_asked.
Print Assumptions C120_counter_lost_refuted.

Print Assumptions C120_result.

Print Assumptions C120_addressable_ends_partial.
