(** Invariants of the pool machines. *)
From Verif Require Import Base Machine PoolModel.
From Coq Require Import Permutation.
Import ListNotations.

(** ** Queries *)
Definition one (b : bool) : nat := if b then 1 else 0.
(** Events with this id in the hands of a relay's goroutine or waiting for it; [st]: only those from before the EOSE. *)
Definition held (st : bool) (id : str) (r : rq) : nat :=
  cnt (fun p => seqb (fst p) id && (negb st || snd p)) (rq_pending r) +
  match rq_ph r with QHold x b => one (seqb x id && (negb st || b)) | _ => 0 end.
Definition delivered (id : str) (log : list qobs) : nat := cnt (fun o => match o with ODeliver _ x => seqb x id | _ => false end) log.
Definition total (st : bool) (id : str) (s : qstate) : nat := delivered id (q_log s) + c_total (held st id) (q_relays s).
Definition excused (id : str) (log : list qobs) : Prop :=
  In OCancel log \/ (exists i, In (OEarly i) log) \/ exists i good late, In (OMsg i id good late) log /\ (good = false \/ late = true).
Definition ok_qobs (o : qobs) (older : list qobs) : Prop :=
  match o with ODeliver i id => ~ In OClose older /\ (exists l, In (OMsg i id true l) older) | OClose => ~ In OClose older | _ => True end.

Record QInv (s : qstate) : Prop := mkQI {
  qi_once : forall id, total false id s <= one (existsb (seqb id) (q_seen s));
  qi_all : forall id, existsb (seqb id) (q_seen s) = true -> excused id (q_log s) \/ 1 <= total true id s;
  qi_seen : forall i id g l, In (OMsg i id g l) (q_log s) -> existsb (seqb id) (q_seen s) = true;
  qi_done : forall i r, nth_error (q_relays s) i = Some r -> is_done r = true ->
     (existsb snd (rq_pending r) = false /\ rq_eose r = true) \/ In OCancel (q_log s) \/ exists i, In (OEarly i) (q_log s);
  qi_ctx : q_ctx s = true -> In OCancel (q_log s) \/ q_closed s = true;
  qi_closed : q_closed s = true -> forallb is_done (q_relays s) = true;
  qi_log : q_closed s = true <-> In OClose (q_log s);
  qi_order : in_order ok_qobs (q_log s);
  qi_msg : forall i id, In (ODeliver i id) (q_log s) -> exists j l, In (OMsg j id true l) (q_log s);
  qi_held : forall i r id, nth_error (q_relays s) i = Some r -> 0 < held false id r -> exists l, In (OMsg i id true l) (q_log s)
}.

Ltac qproj := cbn [q_relays q_seen q_ctx q_closed q_log with_relay rq_ph rq_pending rq_eose app] in *.
Ltac query_cases H :=
  unfold query_step in H; cbv zeta beta in H;
  match type of H with context [match ?a with YStart _ _ => _ | _ => _ end] => destruct a as [?i ?ok|?i ?id ?good|?i|?i ?k|?i|?i|?i|?i|?i| |] end;
  repeat match type of H with
  | (if ?b then _ else _) = _ => destruct b eqn:?
  | match ?o with Some _ => _ | None => _ end = _ => destruct o as [?|] eqn:?
  | match ?w with QConnecting => _ | _ => _ end = _ => destruct w eqn:?
  | match ?p with (_, _) => _ end = _ => destruct p
  | None = Some _ => discriminate H
  end; try discriminate H; injection H as <-; qproj.

Lemma excused_cons id o l : excused id l -> excused id (o :: l).
Proof. intros [H|[[i H]|(i & g & la & H & Q)]]; [left; right; exact H|right; left; exists i; right; exact H|right; right; exists i, g, la; split; [right; exact H|exact Q]]. Qed.
Lemma cnt_remove {X} (f : X -> bool) l k x : nth_error l k = Some x -> cnt f (remove_nth k l) + one (f x) = cnt f l.
Proof. revert k. induction l as [|y l IH]; intros [|k] H; try discriminate; cbn [remove_nth cnt nth_error] in *; [injection H as ->; unfold one; lia|]. specialize (IH k H). lia. Qed.
Lemma cnt_cons {X} (f : X -> bool) x l : cnt f (x :: l) = one (f x) + cnt f l. Proof. reflexivity. Qed.
Lemma delivered_cons id o l : delivered id (o :: l) = one (match o with ODeliver _ x => seqb x id | _ => false end) + delivered id l.
Proof. reflexivity. Qed.
Lemma seqb_sym a b : seqb a b = seqb b a.
Proof. destruct (seqb a b) eqn:E; symmetry; [apply seqb_eq in E; subst; apply seqb_refl|]. destruct (seqb b a) eqn:E2; [|reflexivity]. apply seqb_eq in E2. subst. rewrite seqb_refl in E. discriminate. Qed.
Lemma existsb_cons_seqb id x l : existsb (seqb id) (x :: l) = seqb id x || existsb (seqb id) l. Proof. reflexivity. Qed.

(** How a step changes the totals. *)
Ltac totals_with H :=
  match type of H with nth_error _ ?i = Some ?r =>
    repeat match goal with |- context [c_total ?f (upd ?l i ?x)] =>
      lazymatch goal with U : c_total f (upd l i x) + _ = _ |- _ => fail | _ => pose proof (c_total_upd f l i x r H) end end end.

Lemma cnt_mono {X} (f g : X -> bool) l : (forall x, f x = true -> g x = true) -> cnt f l <= cnt g l.
Proof. intro H. induction l as [|x l IH]; cbn [cnt]; [lia|]. specialize (H x). destruct (f x); [rewrite H by reflexivity|]; lia. Qed.
Lemma held_le st id r : held true id r <= held st id r.
Proof.
  unfold held. assert (G : forall x b, seqb x id && (negb true || b) = true -> seqb x id && (negb st || b) = true) by (intros x b; destruct (seqb x id), b, st; cbn; auto).
  apply Nat.add_le_mono; [apply cnt_mono; intros [x b]; apply G|]. destruct (rq_ph r) as [| |x b|]; try lia. specialize (G x b). destruct (seqb x id && (negb true || b)); [rewrite G by reflexivity|]; cbn; lia.
Qed.

Lemma query_inv_step a s s' : QInv s -> query_step a s = Some s' -> QInv s'.
Proof.
  intros I H. constructor.
  - (* once *) intro id0. pose proof (qi_once s I id0) as O. unfold total in *. 
    query_cases H; rewrite ?delivered_cons, ?existsb_cons_seqb; cbn [one]; try lia;
      try (match goal with HN : nth_error (q_relays s) _ = Some _ |- _ => totals_with HN end; unfold held in *; qproj; cbn [cnt] in *;
           repeat match goal with HP : rq_ph _ = _ |- _ => rewrite HP in * end; cbn [negb orb andb one] in *; rewrite ?andb_true_r in *; try lia; fail).
    + (* a new id *) match goal with HN : nth_error (q_relays s) _ = Some _, E : existsb _ _ = false |- _ => rename HN into HN0; rename E into ES end.
      totals_with HN0. unfold held in *; qproj. rewrite !cnt_app in *. rewrite !cnt_cons in *. cbn [fst snd negb orb andb one cnt] in *. rewrite ?andb_true_r in *.
      destruct (seqb id id0) eqn:Q.
      * apply seqb_eq in Q. subst id0. rewrite ES in O. rewrite seqb_refl. cbn [one orb] in *. lia.
      * rewrite (seqb_sym id0 id), Q. cbn [orb one] in *. lia.
    + destruct (seqb id0 id); cbn [orb one]; [|lia]. destruct (existsb (seqb id0) (q_seen s)); cbn [one] in O; lia.
    + (* take *) match goal with HN : nth_error (q_relays s) _ = Some _, HK : nth_error (rq_pending _) _ = Some _ |- _ => totals_with HN;
        pose proof (cnt_remove (fun p => seqb (fst p) id0 && (negb false || snd p)) _ _ _ HK) as R end.
      unfold held in *; qproj. repeat match goal with HP : rq_ph _ = _ |- _ => rewrite HP in * end. cbn [fst snd negb orb] in *. rewrite ?andb_true_r in *. lia.
  - (* all *) intros id0 HS. pose proof (qi_all s I id0) as O. pose proof (qi_ctx s I) as CT. pose proof (qi_closed s I) as CL. unfold total in *.
    query_cases H; rewrite ?delivered_cons, ?existsb_cons_seqb in *; cbn [one] in *;
      try (left; right; left; eexists; left; reflexivity);
      try (left; left; left; reflexivity);
      try (destruct (O HS) as [O1|O1]; [left; try apply excused_cons; exact O1|]; right; try lia;
           match goal with HN : nth_error (q_relays s) _ = Some _ |- _ => totals_with HN end; unfold held in *; qproj; cbn [cnt] in *;
           repeat match goal with HP : rq_ph _ = _ |- _ => rewrite HP in * end; cbn [negb orb andb one] in *; rewrite ?andb_true_r in *; try lia; fail).
    + (* new, good *) match goal with HN : nth_error (q_relays s) _ = Some _, E : existsb _ _ = false |- _ => rename HN into HN0; rename E into ES end.
      destruct (seqb id0 id) eqn:Q.
      * apply seqb_eq in Q. subst id0. clear O. destruct (rq_eose r) eqn:EE.
        -- left. right. right. exists i, true, true. split; [left; reflexivity|right; reflexivity].
        -- right. totals_with HN0. unfold held in *; qproj. rewrite !cnt_app in *. rewrite !cnt_cons in *. cbn [fst snd negb orb andb one cnt] in *.
           rewrite seqb_refl in *. cbn [andb one] in *. lia.
      * cbn [orb] in HS. destruct (O HS) as [O1|O1]; [left; apply excused_cons; exact O1|]. right. totals_with HN0. unfold held in *; qproj.
        rewrite !cnt_app in *. lia.
    + (* new, bad *) destruct (seqb id0 id) eqn:Q.
      * apply seqb_eq in Q. subst id0. left. right. right. eexists i, false, _. split; [left; reflexivity|left; reflexivity].
      * cbn [orb] in HS. destruct (O HS) as [O1|O1]; [left; apply excused_cons; exact O1|]. right. lia.
    + (* take *) destruct (O HS) as [O1|O1]; [left; exact O1|]. right. match goal with HN : nth_error (q_relays s) _ = Some _, HK : nth_error (rq_pending _) _ = Some _ |- _ => totals_with HN;
        pose proof (cnt_remove (fun p => seqb (fst p) id0 && (negb true || snd p)) _ _ _ HK) as R end.
      unfold held in *; qproj. repeat match goal with HP : rq_ph _ = _ |- _ => rewrite HP in * end. cbn [fst snd negb orb] in *. lia.
    + (* deliver *) destruct (O HS) as [O1|O1]; [left; apply excused_cons; exact O1|]. right.
      match goal with HN : nth_error (q_relays s) _ = Some _ |- _ => totals_with HN end. unfold held in *; qproj. repeat match goal with HP : rq_ph _ = _ |- _ => rewrite HP in * end.
      cbn [negb orb] in *. destruct (seqb id id0); cbn [andb one] in *; [destruct stored; cbn [one] in *|]; lia.
    + left. destruct (CT eq_refl) as [C|C]; [left; exact C|]. exfalso. specialize (CL C). rewrite forallb_forall in CL.
      match goal with HN : nth_error (q_relays s) _ = Some ?r, HP : rq_ph ?r = _ |- _ => apply nth_error_In in HN; apply CL in HN; unfold is_done in HN; rewrite HP in HN; discriminate end.
  - (* seen *) intros j id0 g l HI. pose proof (qi_seen s I j id0 g l) as O. query_cases H; rewrite ?existsb_cons_seqb; cbn [In] in HI;
      try (apply O; exact HI); try (destruct HI as [HI|HI]; [discriminate HI|apply O; exact HI]).
    + destruct HI as [HI|HI]; [|apply O, HI]. injection HI as <- <- <- <-. assumption.
    + destruct HI as [HI|HI]; [|rewrite (O HI); apply orb_true_r]. injection HI as <- <- <- <-. rewrite seqb_refl. reflexivity.
    + destruct HI as [HI|HI]; [|rewrite (O HI); apply orb_true_r]. injection HI as <- <- <- <-. rewrite seqb_refl. reflexivity.
  - (* done *) intros j r0 HN HD. pose proof (qi_done s I) as O. pose proof (qi_ctx s I) as CT. pose proof (qi_closed s I) as CL.
    assert (MON : forall o, ((existsb snd (rq_pending r0) = false /\ rq_eose r0 = true) \/ In OCancel (q_log s) \/ (exists i, In (OEarly i) (q_log s))) ->
      (existsb snd (rq_pending r0) = false /\ rq_eose r0 = true) \/ In OCancel (o :: q_log s) \/ (exists i, In (OEarly i) (o :: q_log s))).
    { intros o [Q|[Q|[k Q]]]; [left; exact Q|right; left; right; exact Q|right; right; exists k; right; exact Q]. }
    query_cases H; try (right; right; eexists; left; reflexivity); try (right; left; left; reflexivity); try (apply MON; eapply O; eassumption);
      try (apply nth_upd in HN as [[<- ->]|[NE HN]]; [qproj; try discriminate HD|first [apply MON; eapply O; eassumption|eapply O; eassumption]]).
    + (* message *) match goal with HN : nth_error (q_relays s) _ = Some ?r |- _ => rename HN into HN0 end. unfold is_done in HD; qproj. 
      destruct (O _ _ HN0) as [[Q1 Q2]|[Q|[k Q]]]; [exact HD| |right; left; right; exact Q|right; right; exists k; right; exact Q].
      left. split; [|exact Q2]. rewrite existsb_app, Q1, Q2. reflexivity.
    + (* eose *) match goal with HN : nth_error (q_relays s) _ = Some ?r |- _ => rename HN into HN0 end. unfold is_done in HD; qproj.
      destruct (O _ _ HN0 HD) as [[Q1 Q2]|Q]; [left; split; [exact Q1|reflexivity]|right; exact Q].
    + (* end *) left. match goal with HB : _ && _ = true |- _ => apply andb_true_iff in HB as [B1 B2]; apply negb_true_iff in B2 end. split; assumption.
    + right. left. destruct (CT eq_refl) as [C|C]; [exact C|]. exfalso. specialize (CL C). rewrite forallb_forall in CL.
      match goal with HN : nth_error (q_relays s) _ = Some ?r, HP : rq_ph ?r = _ |- _ => apply nth_error_In in HN; apply CL in HN; unfold is_done in HN; rewrite HP in HN; discriminate end.
    + right. left. destruct (CT eq_refl) as [C|C]; [exact C|]. exfalso. specialize (CL C). rewrite forallb_forall in CL.
      match goal with HN : nth_error (q_relays s) _ = Some ?r, HP : rq_ph ?r = _ |- _ => apply nth_error_In in HN; apply CL in HN; unfold is_done in HN; rewrite HP in HN; discriminate end.
  - (* ctx *) pose proof (qi_ctx s I) as O. query_cases H; intro C; cbn [In]; try (destruct (O C); auto; fail); auto;
      try (destruct (O eq_refl); auto; fail).
  - (* closed *) pose proof (qi_closed s I) as CL.
    assert (K : forall i r x, nth_error (q_relays s) i = Some r -> (is_done r = true -> is_done x = true) -> forallb is_done (q_relays s) = true -> forallb is_done (upd (q_relays s) i x) = true).
    { intros i r x HN Q F. apply forallb_forall. intros y Hy. apply In_nth_error in Hy as [k Hk]. apply nth_upd in Hk as [[<- ->]|[NE Hk]].
      - apply Q. rewrite forallb_forall in F. apply F. eapply nth_error_In. exact HN.
      - rewrite forallb_forall in F. apply F. eapply nth_error_In. exact Hk. }
    query_cases H; intro C; auto;
      try (eapply K; [eassumption|unfold is_done; qproj; repeat match goal with HP : rq_ph _ = _ |- _ => rewrite HP in * end; auto; intro Z; exact Z|apply CL, C]; fail).
    match goal with HB : _ && _ = true |- _ => apply andb_true_iff in HB as [B1 B2] end. exact B1.
  - (* log *) pose proof (qi_log s I) as O. query_cases H; cbn [In]; rewrite ?O; try tauto; try (split; [tauto|intros [Q|Q]; [discriminate Q|exact Q]]; fail).
  - (* order *) pose proof (qi_order s I) as O. pose proof (qi_held s I) as HE. pose proof (qi_log s I) as L. pose proof (qi_closed s I) as CL.
    query_cases H; cbn [in_order ok_qobs]; auto.
    + match goal with HN : nth_error (q_relays s) _ = Some ?r |- _ => pose proof HN as HN0 end. split; [|exact O]. split.
      * intro Q. apply L in Q. specialize (CL Q). rewrite forallb_forall in CL. apply nth_error_In in HN0; apply CL in HN0; unfold is_done in HN0.
        repeat match goal with HP : rq_ph _ = _ |- _ => rewrite HP in * end. discriminate.
      * apply (HE _ _ id HN0). unfold held. repeat match goal with HP : rq_ph _ = _ |- _ => rewrite HP in * end. rewrite seqb_refl. cbn. lia.
    + split; [|exact O]. intro Q. apply L in Q. match goal with HB : _ && _ = true |- _ => apply andb_true_iff in HB as [B1 B2]; rewrite Q in B2; discriminate end.
  - (* delivered ones were sent *) intros j id0 HI. pose proof (qi_msg s I) as O. pose proof (qi_held s I) as HE.
    query_cases H; cbn [In] in HI |- *; try (destruct HI as [HI|HI]; [try discriminate HI|]); try (destruct (O _ _ HI) as (j' & l & Q); exists j', l; auto; fail).
    match goal with HN : nth_error (q_relays s) _ = Some ?r |- _ => rename HN into HN0 end. injection HI as <- <-. destruct (HE _ _ id HN0) as (l & Q); [|exists i, l; auto].
    unfold held. repeat match goal with HP : rq_ph _ = _ |- _ => rewrite HP in * end. rewrite seqb_refl. cbn. lia.
  - (* held ones were sent *) intros j r0 id0 HN HP. pose proof (qi_held s I) as HE.
    query_cases H; cbn [In]; try (destruct (HE _ _ _ HN HP) as (l & Q); exists l; auto; fail);
      (apply nth_upd in HN as [[<- ->]|[NE HN]]; [|destruct (HE _ _ _ HN HP) as (l & Q); exists l; auto; fail]); unfold held in HP; qproj; cbn [cnt] in HP; try lia;
      match goal with HN : nth_error (q_relays s) _ = Some ?r |- _ => rename HN into HN0 end; specialize (HE _ _ id0 HN0); unfold held in HE;
      repeat match goal with HP : rq_ph _ = _ |- _ => rewrite HP in * end; rewrite ?Nat.add_0_r in *;
      try (destruct HE as (l & Q); [lia|]; exists l; auto; fail).
    + rewrite cnt_app, cnt_cons in HP. cbn [fst snd negb orb cnt] in HP, HE. rewrite andb_true_r in HP. destruct (seqb id id0) eqn:Q.
      * apply seqb_eq in Q. subst id0. exists (rq_eose r || is_done r). left. reflexivity.
      * destruct HE as (l & QQ); [cbn [one] in HP; lia|]. exists l. auto.
    + match goal with HK : nth_error (rq_pending _) _ = Some _ |- _ => pose proof (cnt_remove (fun p => seqb (fst p) id0 && (negb false || snd p)) _ _ _ HK) as R end.
      cbn [fst snd negb orb] in *. rewrite ?andb_true_r in *. destruct HE as (l & Q); [lia|]. exists l; auto.
Qed.

Definition query_reachable (n : nat) (s : qstate) : Prop := reaches query_step (query_init n) s.
Lemma query_inv n s : query_reachable n s -> QInv s.
Proof.
  apply (invariant query_step QInv); [|intros a s1 s2 I H; eapply query_inv_step; eassumption].
  assert (R : forall i r, nth_error (repeat (mkRQ QConnecting [] false) n) i = Some r -> r = mkRQ QConnecting [] false) by (intros i r H; apply nth_error_In in H; apply repeat_spec in H; exact H).
  constructor; [|cbn; try discriminate; try tauto..].
  - intro id. assert (Z : c_total (held false id) (repeat (mkRQ QConnecting [] false) n) = 0) by (clear; induction n as [|n IH]; [reflexivity|exact IH]).
    unfold total. cbn [q_log q_relays query_init]. unfold query_init. cbn [q_log q_relays]. rewrite Z. cbn. lia.
  - intros i r H HD. apply R in H. subst. discriminate.
  - split; [discriminate|intros []].
  - intros i r id H HP. apply R in H. subst. cbn in HP. lia.
Qed.

(** The pool's own moves, as opposed to the relays' and the caller's. *)
Definition q_internal (a : qaction) : bool := match a with YTake _ _ | YDeliver _ | YEnd _ | YCtx _ | YWait => true | _ => false end.
Definition rq_weight (r : rq) : nat := 2 * length (rq_pending r) + match rq_ph r with QConnecting => 2 | QRunning => 1 | QHold _ _ => 2 | QDone => 0 end.
Definition q_weight (s : qstate) : nat := c_total rq_weight (q_relays s) + one (negb (q_closed s)).
Lemma remove_nth_length {X} (l : list X) k x : nth_error l k = Some x -> S (length (remove_nth k l)) = length l.
Proof. revert k. induction l as [|y l IH]; intros [|k] H; try discriminate; cbn in *; auto. Qed.
Lemma query_weight a s s' : q_internal a = true -> query_step a s = Some s' -> q_weight s' < q_weight s.
Proof.
  intros HA H. unfold q_weight. query_cases H; try discriminate HA;
    try (match goal with HN : nth_error (q_relays s) _ = Some _ |- _ => totals_with HN end; unfold rq_weight in *; qproj;
           repeat match goal with HP : rq_ph _ = _ |- _ => rewrite HP in * end; try lia; fail).
  - match goal with HN : nth_error (q_relays s) _ = Some _, HK : nth_error (rq_pending _) _ = Some _ |- _ => totals_with HN; pose proof (remove_nth_length _ _ _ HK) end.
    unfold rq_weight in *; qproj. repeat match goal with HP : rq_ph _ = _ |- _ => rewrite HP in * end. lia.
  - match goal with HB : _ && _ = true |- _ => apply andb_true_iff in HB as [B1 B2]; rewrite B2 end. cbn. lia.
Qed.
(** With no move left, each relay that gave its EOSE is done; when no relay is in the making the channel is closed. *)
Lemma query_quiet s : QInv s -> (forall a, q_internal a = true -> query_step a s = None) ->
  (forall i r, nth_error (q_relays s) i = Some r -> is_connecting r = false /\ (rq_eose r = true \/ is_done r = true)) -> q_closed s = true.
Proof.
  intros I Q W. assert (D : forallb is_done (q_relays s) = true).
  { apply forallb_forall. intros r Hr. apply In_nth_error in Hr as [i Hi]. destruct (W i r Hi) as [W1 W2]. unfold is_done, is_connecting in *.
    destruct (rq_ph r) eqn:P; try discriminate; auto.
    - destruct W2 as [W2|W2]; [|discriminate]. destruct (existsb snd (rq_pending r)) eqn:X.
      + apply existsb_exists in X as ([id b] & X & _). apply In_nth_error in X as [k X]. specialize (Q (YTake i k) eq_refl). cbn in Q. rewrite Hi, P, X in Q. discriminate.
      + specialize (Q (YEnd i) eq_refl). cbn in Q. rewrite Hi, P, W2, X in Q. discriminate.
    - specialize (Q (YDeliver i) eq_refl). cbn in Q. rewrite Hi, P in Q. discriminate. }
  destruct (q_closed s) eqn:C; [reflexivity|]. specialize (Q YWait eq_refl). cbn in Q. rewrite D, C in Q. discriminate.
Qed.

(** ** The end of a live subscription *)
Definition is_run (g : goroutine) : nat := match g_ph g with GRun => 1 | _ => 0 end.
Definition is_busy (g : goroutine) : nat := match g_ph g with GEnd => 0 | _ => 1 end.
Definition not_eosed (g : goroutine) : nat := one (negb (g_eosed g)).
Record MInv (urls : list str) (s : mstate) : Prop := mkMI {
  mi_n : length (m_gs s) = fresh_count urls;
  mi_pending : m_pending s = (Z.of_nat (length urls - fresh_count urls) + Z.of_nat (c_total is_run (m_gs s)))%Z;
  mi_wg : m_wg s = Z.of_nat (c_total not_eosed (m_gs s));
  mi_closing : length urls = fresh_count urls -> urls <> [] -> 1 <= c_total is_busy (m_gs s) + m_closes s;
  mi_dup : fresh_count urls < length urls -> m_closes s = 0 /\ forall i g, nth_error (m_gs s) i = Some g -> g_ph g <> GClose;
  mi_note : m_notified s <= 1 /\ (m_notified s = 1 -> c_total not_eosed (m_gs s) = 0);
  mi_crash : m_crash s = true -> 2 <= m_closes s
}.
Ltac mproj := cbn [m_gs m_pending m_closes m_wg m_notified m_crash g_ph g_eosed] in *.
Ltac many_cases H :=
  unfold many_step in H; cbv zeta beta in H;
  repeat match type of H with
  | (if ?b then _ else _) = _ => destruct b eqn:?
  | match ?o with Some _ => _ | None => _ end = _ => destruct o as [?|] eqn:?
  | match ?w with GRun => _ | _ => _ end = _ => destruct w eqn:?
  | match ?a with MEose _ => _ | _ => _ end = _ => destruct a as [?i|?i|?i|?i|?i|]
  | None = Some _ => discriminate H
  end; try discriminate H; injection H as <-; mproj.
Lemma c_total_ge {X} (f : X -> nat) l i x : nth_error l i = Some x -> f x <= c_total f l.
Proof. revert i. induction l as [|y l IH]; intros [|i] H; try discriminate; unfold c_total in *; cbn [fold_right nth_error] in *; [injection H as ->; lia|]. specialize (IH i H). lia. Qed.
Lemma c_total_le {X} (f g : X -> nat) l : (forall x, f x <= g x) -> c_total f l <= c_total g l.
Proof. intro H. unfold c_total. induction l as [|x l IH]; cbn; [lia|]. specialize (H x). lia. Qed.
Lemma c_total_zero {X} (f : X -> nat) l : (forall x, In x l -> f x = 0) -> c_total f l = 0.
Proof. intro H. unfold c_total. induction l as [|x l IH]; [reflexivity|]. cbn. rewrite (H x) by (left; reflexivity). apply IH. intros y Hy. apply H. right. exact Hy. Qed.
Lemma c_total_zero_inv {X} (f : X -> nat) l x : c_total f l = 0 -> In x l -> f x = 0.
Proof. intros H HI. apply In_nth_error in HI as [i HI]. apply (c_total_ge f) in HI. lia. Qed.
Ltac totals := match goal with HN : nth_error (m_gs _) _ = Some _ |- _ => totals_with HN end.
Ltac phases := repeat match goal with HP : g_ph _ = _ |- _ => rewrite HP in * | HP : g_eosed _ = _ |- _ => rewrite HP in * end.

Lemma many_inv_step urls a s s' : MInv urls s -> many_step a s = Some s' -> MInv urls s'.
Proof.
  intros I H. destruct I as [I1 I2 I3 I4 I5 I6 I7]. constructor.
  - many_cases H; rewrite ?upd_length; exact I1.
  - many_cases H; try totals; unfold is_run in *; mproj; phases; try (destruct (Z.eqb _ _) in *); try lia.
  - many_cases H; try totals; unfold not_eosed in *; mproj; phases; cbn [negb one] in *; try lia.
  - many_cases H; try totals; unfold is_busy, is_run in *; mproj; intros Q1 Q2; specialize (I4 Q1 Q2); phases; try lia.
    destruct (Z.eqb_spec (m_pending s) 0) as [Z|Z]; [lia|]. 
    match goal with |- 1 <= c_total ?f (upd ?l ?i ?x) + _ => assert (c_total (fun g => match g_ph g with GRun => 1 | _ => 0 end) (upd l i x) <= c_total f (upd l i x)) by (apply c_total_le; intro g0; destruct (g_ph g0); lia) end.
    match goal with HN : nth_error (m_gs s) _ = Some ?g |- _ => pose proof (c_total_upd (fun g => match g_ph g with GRun => 1 | _ => 0 end) _ _ (mkG GEnd (g_eosed g)) _ HN) as U end.
    cbn [g_ph] in U. phases. lia.
  - intro Q. destruct (I5 Q) as [C N].
    many_cases H; rewrite ?C; (split; [reflexivity||(exfalso; match goal with HN : nth_error (m_gs s) _ = Some _, HP : g_ph _ = GClose |- _ => exact (N _ _ HN HP) end)|]); try exact N;
      intros j g0 HN; (apply nth_upd in HN as [[<- ->]|[NE HN]]; [mproj|exact (N _ _ HN)]); try discriminate; try (match goal with HN : nth_error (m_gs s) _ = Some _ |- _ => exact (N _ _ HN) end).
    destruct (Z.eqb_spec (m_pending s) 0); [lia|discriminate].
  - destruct I6 as [N1 N2]. many_cases H; (split; [try exact N1; lia|]); try totals; unfold not_eosed in *; mproj; intro Q; try specialize (N2 Q); phases; cbn [negb one] in *; try lia.
  - many_cases H; intro Q; try discriminate; try (apply Z.ltb_lt in Q); try (apply Nat.ltb_lt in Q; lia);
      match goal with HN : nth_error (m_gs s) _ = Some _ |- _ => pose proof (c_total_ge not_eosed _ _ _ HN) as G end; unfold not_eosed in *; mproj; phases; cbn [negb one] in *; lia.
Qed.
Lemma firsts_length seen urls : length (firsts seen urls) = length urls.
Proof. revert seen. induction urls as [|u r IH]; intro seen; [reflexivity|]. cbn. rewrite IH. reflexivity. Qed.
Lemma filter_length_le {X} (f : X -> bool) l : length (filter f l) <= length l.
Proof. induction l as [|x l IH]; [reflexivity|]. cbn. destruct (f x); cbn; lia. Qed.
Lemma fresh_le urls : fresh_count urls <= length urls.
Proof. unfold fresh_count. rewrite <- (firsts_length [] urls). apply filter_length_le. Qed.
Lemma c_total_repeat {X} (f : X -> nat) x n : c_total f (repeat x n) = n * f x.
Proof. unfold c_total. induction n as [|n IH]; [reflexivity|]. cbn [repeat fold_right]. rewrite IH. cbn. reflexivity. Qed.
Lemma many_inv urls s : reaches many_step (many_init urls) s -> MInv urls s.
Proof.
  apply (invariant many_step (MInv urls)); [|intros a s1 s2 I H; eapply many_inv_step; eassumption].
  pose proof (fresh_le urls) as L. unfold many_init. constructor; mproj; rewrite ?c_total_repeat; unfold is_run, is_busy, not_eosed; cbn [g_ph g_eosed negb one]; try lia.
  - apply repeat_length.
  - intros Q1 Q2. rewrite <- Q1. destruct urls; [congruence|]. cbn [length]. lia.
  - intro Q. split; [reflexivity|]. intros i g HN. apply nth_error_In, repeat_spec in HN. subst. discriminate.
Qed.
Lemma many_no_early urls s : reaches many_step (many_init urls) s ->
  (1 <= m_closes s -> c_total is_run (m_gs s) = 0) /\ (forall i g, nth_error (m_gs s) i = Some g -> g_ph g = GClose -> c_total is_run (m_gs s) = 0).
Proof.
  set (P := fun s => MInv urls s /\ (1 <= m_closes s -> c_total is_run (m_gs s) = 0) /\ (forall i g, nth_error (m_gs s) i = Some g -> g_ph g = GClose -> c_total is_run (m_gs s) = 0)).
  intro R. assert (G : P s); [|exact (proj2 G)]. revert s R. apply (invariant many_step P).
  - split; [apply many_inv, reaches_refl|]. cbn. split; [lia|]. intros i g H Q. apply nth_error_In, repeat_spec in H. subst. discriminate.
  - intros a s s' (I & N1 & N2) H. split; [eapply many_inv_step; eassumption|]. pose proof (mi_pending urls s I) as MP. clear I.
    assert (K : forall i g p e, nth_error (m_gs s) i = Some g -> p <> GRun -> c_total is_run (upd (m_gs s) i (mkG p e)) <= c_total is_run (m_gs s)).
    { intros i g p e HN Q. pose proof (c_total_upd is_run _ _ (mkG p e) _ HN) as U. unfold is_run at 4 in U. cbn [g_ph] in U. destruct p; [congruence|lia|lia|lia]. }
    assert (K2 : forall i g e, nth_error (m_gs s) i = Some g -> c_total is_run (upd (m_gs s) i (mkG (g_ph g) e)) = c_total is_run (m_gs s)).
    { intros i g e HN. pose proof (c_total_upd is_run _ _ (mkG (g_ph g) e) _ HN) as U. unfold is_run at 2 4 in U. cbn [g_ph] in U. lia. }
    many_cases H; try (split; assumption);
      match goal with HN : nth_error (m_gs s) _ = Some ?g |- _ => rename HN into HN0; specialize (K2 _ _ true HN0); pose proof (fun p e => K _ _ p e HN0) as K0 end; clear K.
    + rewrite K2. split; [exact N1|]. intros j g0 Hj Q. apply nth_upd in Hj as [[<- ->]|[NE Hj]]; [exact (N2 _ _ HN0 Q)|exact (N2 _ _ Hj Q)].
    + assert (K1 := K0 GSeen (g_eosed g) ltac:(discriminate)). split; [intro C; specialize (N1 C); lia|]. intros j g0 Hj Q. apply nth_upd in Hj as [[<- ->]|[NE Hj]]; [discriminate Q|]. specialize (N2 _ _ Hj Q). lia.
    + assert (K1 := K0 (if Z.eqb (m_pending s) 0 then GClose else GEnd) (g_eosed g) ltac:(destruct (Z.eqb _ _); discriminate)). split; [intro C; specialize (N1 C); lia|].
      intros j g0 Hj Q. apply nth_upd in Hj as [[<- ->]|[NE Hj]]; [|specialize (N2 _ _ Hj Q); lia]. cbn [g_ph] in Q. destruct (Z.eqb_spec (m_pending s) 0); [lia|discriminate].
    + assert (K1 := K0 GEnd (g_eosed g) ltac:(discriminate)). pose proof (N2 _ _ HN0 Heqg0) as Z. split; intros; lia.
    + assert (K1 := K0 GEnd true ltac:(discriminate)). split; [intro C; specialize (N1 C); lia|]. intros j g0 Hj Q. apply nth_upd in Hj as [[<- ->]|[NE Hj]]; [discriminate Q|]. specialize (N2 _ _ Hj Q). lia.
Qed.
Lemma fresh_nodup urls : NoDup urls -> fresh_count urls = length urls.
Proof.
  unfold fresh_count. intro H. assert (G : forall seen, (forall u, In u urls -> ~ In u seen) -> length (filter (fun b => b) (firsts seen urls)) = length urls); [|apply G; intros u _ []].
  induction H as [|u r N ND IH]; intros seen D; [reflexivity|]. cbn [firsts].
  assert (Z : existsb (seqb u) seen = false). { destruct (existsb (seqb u) seen) eqn:X; [|reflexivity]. exfalso. apply existsb_exists in X as (v & X1 & X2). apply seqb_eq in X2. subst v. apply (D u); [left; reflexivity|exact X1]. }
  rewrite Z. cbn [negb filter length]. rewrite IH; [reflexivity|]. intros v Hv [<-|Q]; [exact (N Hv)|]. apply (D v); [right; exact Hv|exact Q].
Qed.
Lemma fresh_dup urls : ~ NoDup urls -> fresh_count urls < length urls.
Proof.
  intro H. assert (G : forall seen, fresh_count urls = fresh_count urls -> length (filter (fun b => b) (firsts seen urls)) = length urls -> NoDup urls /\ forall u, In u urls -> ~ In u seen).
  { clear H. induction urls as [|u r IH]; intros seen _ Q; [split; [constructor|intros u []]|]. cbn [firsts filter length] in Q. 
    pose proof (filter_length_le (fun b => b) (firsts (u :: seen) r)) as L. rewrite firsts_length in L.
    destruct (existsb (seqb u) seen) eqn:X; cbn [negb length] in Q; [lia|]. destruct (IH (u :: seen) eq_refl) as [N D]; [lia|]. split.
    - constructor; [|exact N]. intro HI. apply (D u HI). left. reflexivity.
    - intros v [<-|Hv] HI; [|apply (D v Hv); right; exact HI]. assert (existsb (seqb u) seen = true); [|congruence]. apply existsb_exists. exists u. split; [exact HI|apply seqb_refl]. }
  pose proof (fresh_le urls) as L. destruct (Nat.eq_dec (fresh_count urls) (length urls)) as [E|E]; [|lia]. exfalso. apply H. exact (proj1 (G [] eq_refl E)).
Qed.

(** Goroutines that leave one at a time: the decrement, the test and the close are not interrupted. *)
Inductive taction := AEose (i : nat) | ALeave (i : nat) | ADone (i : nat) | ANotify.
Definition one_at_a_time (a : taction) (s : mstate) : option mstate :=
  match a with
  | AEose i => many_step (MEose i) s
  | ALeave i => match exec many_step [MDec i; MCheck i] s with
                | Some s' => match many_step (MClose i) s' with Some s2 => Some s2 | None => Some s' end
                | None => None
                end
  | ADone i => many_step (MDone i) s
  | ANotify => many_step MNotify s
  end.
Definition TInv (s : mstate) : Prop :=
  (forall i g, nth_error (m_gs s) i = Some g -> g_ph g = GRun \/ g_ph g = GEnd) /\
  m_pending s = Z.of_nat (c_total is_run (m_gs s)) /\ m_crash s = false /\ 1 <= length (m_gs s) /\
  m_closes s = (if Nat.eqb (c_total is_run (m_gs s)) 0 then 1 else 0) /\ m_wg s = Z.of_nat (c_total not_eosed (m_gs s)).
Lemma upd_upd {X} (l : list X) i x y : upd (upd l i x) i y = upd l i y.
Proof. revert i. induction l as [|z l IH]; intros [|i]; cbn; auto. rewrite IH. reflexivity. Qed.
Lemma t_inv_step a s s' : TInv s -> one_at_a_time a s = Some s' -> TInv s'.
Proof.
  intros (T1 & T2 & T3 & T4 & T5 & T6) H.
  assert (K : forall i g b, nth_error (m_gs s) i = Some g -> g_eosed g = false -> b = mkM (upd (m_gs s) i (mkG (g_ph g) true)) (m_pending s) (m_closes s) (m_wg s - 1) (m_notified s) (Z.ltb (m_wg s - 1) 0) -> TInv b).
  { intros i g b HN HE ->. unfold TInv; mproj. pose proof (c_total_upd is_run _ _ (mkG (g_ph g) true) _ HN) as U1. pose proof (c_total_upd not_eosed _ _ (mkG (g_ph g) true) _ HN) as U2.
    unfold is_run at 2 4 in U1. unfold not_eosed at 2 4 in U2. rewrite HE in U2. cbn [g_ph g_eosed negb one] in U1, U2. rewrite upd_length.
    replace (c_total is_run (upd (m_gs s) i (mkG (g_ph g) true))) with (c_total is_run (m_gs s)) by lia.
    repeat split; auto; try lia. - intros j g0 Hj. apply nth_upd in Hj as [[<- ->]|[NE Hj]]; [exact (T1 _ _ HN)|exact (T1 _ _ Hj)]. }
  destruct a as [i|i|i|]; cbn [one_at_a_time] in H.
  - many_cases H. eapply K; [eassumption|assumption|reflexivity].
  - cbn [exec] in H. destruct (many_step (MDec i) s) as [s1|] eqn:E1; [|discriminate]. destruct (many_step (MCheck i) s1) as [s2|] eqn:E2; [|discriminate].
    many_cases E1. match goal with HN : nth_error (m_gs s) _ = Some ?g0 |- _ => rename HN into HN0; rename g0 into g end.
    pose proof (nth_lt _ _ _ HN0) as L. 
    pose proof (c_total_upd is_run _ _ (mkG GEnd (g_eosed g)) _ HN0) as U1. pose proof (c_total_upd not_eosed _ _ (mkG GEnd (g_eosed g)) _ HN0) as U2.
    unfold is_run at 2 4 in U1. unfold not_eosed at 2 4 in U2. cbn [g_ph g_eosed] in U1, U2. phases.
    assert (P0 : c_total is_run (m_gs s) <> 0). { pose proof (c_total_ge is_run _ _ _ HN0) as G. unfold is_run at 1 in G. phases. lia. }
    apply Nat.eqb_neq in P0 as P1. rewrite P1 in T5.
    unfold many_step in E2. mproj. rewrite nth_upd_same in E2 by exact L. mproj. injection E2 as <-. rewrite upd_upd in H.
    unfold many_step in H. mproj. rewrite nth_upd_same in H by (rewrite ?upd_length; exact L). mproj.
    assert (KK : forall c, c = (if Nat.eqb (c_total is_run (upd (m_gs s) i (mkG GEnd (g_eosed g)))) 0 then 1 else 0) -> TInv (mkM (upd (m_gs s) i (mkG GEnd (g_eosed g))) (m_pending s - 1) c (m_wg s) (m_notified s) false)).
    { intros c ->. unfold TInv; mproj. rewrite upd_length. repeat split; try lia. intros j g0 Hj. apply nth_upd in Hj as [[<- ->]|[NE Hj]]; [right; reflexivity|exact (T1 _ _ Hj)]. }
    destruct (Z.eqb_spec (m_pending s - 1) 0) as [Z|Z]; injection H as <-.
    + rewrite upd_upd. rewrite T5. cbn [Nat.ltb Nat.leb]. apply KK. destruct (Nat.eqb_spec (c_total is_run (upd (m_gs s) i (mkG GEnd (g_eosed g)))) 0); [reflexivity|lia].
    + apply KK. destruct (Nat.eqb_spec (c_total is_run (upd (m_gs s) i (mkG GEnd (g_eosed g)))) 0); [lia|exact T5].
  - many_cases H. eapply K; [eassumption|assumption|]. phases. reflexivity.
  - many_cases H. unfold TInv; mproj. auto 10.
Qed.

(** ** PublishMany *)
(** The result each goroutine owes, with the index of its URL. *)
Fixpoint owed (handler : bool) (k : nat) (l : list (str * calls)) : list (nat * str * perror) :=
  match l with [] => [] | (u, c) :: r => (k, u, publish_one handler c) :: owed handler (S k) r end.
Fixpoint sent (handler : bool) (k : nat) (l : list (str * calls * wphase)) : list (nat * str * perror) :=
  match l with
  | [] => []
  | (u, c, p) :: r => (match p with WWork => [] | _ => [(k, u, publish_one handler c)] end) ++ sent handler (S k) r
  end.
Definition unfinished (g : str * calls * wphase) : nat := match snd g with WFinished => 0 | _ => 1 end.
Record WInv (handler : bool) (l : list (str * calls)) (s : wstate) : Prop := mkWI {
  wi_gs : map fst (w_gs s) = l;
  wi_sent : Permutation (w_taken s ++ w_ch s) (sent handler 0 (w_gs s));
  wi_cap : w_cap s = length l;
  wi_count : w_count s = c_total unfinished (w_gs s);
  wi_closed : w_closed s = true -> w_count s = 0
}.
Lemma sent_upd h k l i u c : nth_error l i = Some (u, c, WWork) ->
  Permutation (sent h k (upd l i (u, c, WSent))) ((k + i, u, publish_one h c) :: sent h k l).
Proof.
  revert k i. induction l as [|[[u0 c0] p0] l IH]; intros k [|i] H; try discriminate; cbn [upd sent nth_error] in *.
  - injection H as -> -> ->. rewrite Nat.add_0_r. reflexivity.
  - specialize (IH (S k) i H). replace (S k + i) with (k + S i) in IH by lia. rewrite IH. symmetry. apply Permutation_middle.
Qed.
Lemma sent_same h k l i u c p q : nth_error l i = Some (u, c, p) -> p <> WWork -> q <> WWork -> sent h k (upd l i (u, c, q)) = sent h k l.
Proof.
  revert k i. induction l as [|[[u0 c0] p0] l IH]; intros k [|i] H P Q; try discriminate; cbn [upd sent nth_error] in *.
  - injection H as -> -> ->. destruct p, q; try congruence.
  - rewrite IH by assumption. reflexivity.
Qed.
Lemma map_fst_upd {X Y} (l : list (X * Y)) i x y y' : nth_error l i = Some (x, y) -> map fst (upd l i (x, y')) = map fst l.
Proof. revert i. induction l as [|z l IH]; intros [|i] H; try discriminate; cbn in *; [injection H as ->; reflexivity|]. rewrite IH by exact H. reflexivity. Qed.
Lemma publish_inv_step h l a s s' : WInv h l s -> many_publish_step h a s = Some s' -> WInv h l s'.
Proof.
  intros [I1 I2 I3 I4 I5] H. destruct a as [i|i| |]; cbn [many_publish_step] in H.
  - destruct (nth_error (w_gs s) i) as [[[u c] p]|] eqn:HN; [|discriminate]. destruct p; try discriminate. destruct (Nat.ltb _ _) eqn:HL; [|discriminate]. injection H as <-.
    pose proof (c_total_upd unfinished _ _ (u, c, WSent) _ HN) as U. unfold unfinished at 2 4 in U. cbn [snd] in U.
    pose proof (c_total_ge unfinished _ _ _ HN) as G. unfold unfinished at 1 in G. cbn [snd] in G.
    constructor; cbn [w_gs w_ch w_cap w_taken w_count w_closed].
    + rewrite (map_fst_upd _ _ _ _ _ HN). exact I1.
    + rewrite (sent_upd h 0 _ _ _ _ HN). cbn [Nat.add]. rewrite app_assoc, I2. symmetry. apply Permutation_cons_append.
    + exact I3.
    + lia.
    + intro C. specialize (I5 C). lia.
  - destruct (nth_error (w_gs s) i) as [[[u c] p]|] eqn:HN; [|discriminate]. destruct p; try discriminate. injection H as <-.
    pose proof (c_total_upd unfinished _ _ (u, c, WFinished) _ HN) as U. unfold unfinished at 2 4 in U. cbn [snd] in U.
    constructor; cbn [w_gs w_ch w_cap w_taken w_count w_closed].
    + rewrite (map_fst_upd _ _ _ _ _ HN). exact I1.
    + rewrite (sent_same h 0 _ _ _ _ _ _ HN) by discriminate. exact I2.
    + exact I3.
    + lia.
    + intro C. specialize (I5 C). lia.
  - destruct (w_ch s) as [|r ch] eqn:E; [discriminate|]. injection H as <-. constructor; cbn [w_gs w_ch w_cap w_taken w_count w_closed]; auto. rewrite <- app_assoc. exact I2.
  - destruct (_ && _) eqn:E; [|discriminate]. injection H as <-. apply andb_true_iff in E as [E1 E2]. apply Nat.eqb_eq in E1.
    constructor; cbn [w_gs w_ch w_cap w_taken w_count w_closed]; auto. lia.
Qed.
Lemma publish_inv h l s : reaches (many_publish_step h) (many_publish_init l) s -> WInv h l s.
Proof.
  apply (invariant (many_publish_step h) (WInv h l)); [|intros a s1 s2 I H; eapply publish_inv_step; eassumption]. unfold many_publish_init.
  constructor; cbn [w_gs w_ch w_cap w_taken w_count w_closed]; try discriminate; auto.
  - rewrite map_map. cbn [fst]. rewrite (map_ext _ (fun x => x)), map_id; [reflexivity|]. intros [? ?]. reflexivity.
  - assert (Z : forall k, sent h k (map (fun p => (fst p, snd p, WWork)) l) = []) by (induction l as [|p l IH]; intro k; [reflexivity|exact (IH (S k))]). rewrite Z. constructor.
  - unfold c_total. induction l as [|p l IH]; [reflexivity|]. cbn in *. rewrite <- IH. reflexivity.
Qed.
Lemma sent_all h k l : (forall g, In g l -> snd g <> WWork) -> sent h k l = owed h k (map fst l).
Proof.
  revert k. induction l as [|[[u c] p] l IH]; intros k H; [reflexivity|]. cbn [sent owed map fst]. rewrite IH by (intros g Hg; apply H; right; exact Hg).
  specialize (H (u, c, p) (or_introl eq_refl)). cbn in H. destruct p; [congruence|reflexivity|reflexivity].
Qed.
Lemma sent_length h k l : length (sent h k l) + cnt (fun g => match snd g with WWork => true | _ => false end) l = length l.
Proof. revert k. induction l as [|[[u c] p] l IH]; intro k; [reflexivity|]. cbn [sent cnt snd length]. rewrite app_length. specialize (IH (S k)). destruct p; cbn [length] in *; lia. Qed.
Lemma cnt_pos {X} (f : X -> bool) l i x : nth_error l i = Some x -> f x = true -> 0 < cnt f l.
Proof. revert i. induction l as [|y l IH]; intros [|i] H Q; try discriminate; cbn [nth_error cnt] in *; [injection H as ->; rewrite Q; lia|]. specialize (IH i H Q). lia. Qed.
Definition w_internal (a : waction) : bool := true.
Definition w_weight (s : wstate) : nat := c_total (fun g => match snd g with WWork => 3 | WSent => 1 | WFinished => 0 end) (w_gs s) + length (w_ch s) + one (negb (w_closed s)).
Lemma publish_weight h a s s' : many_publish_step h a s = Some s' -> w_weight s' < w_weight s.
Proof.
  intro H. unfold w_weight. destruct a as [i|i| |]; cbn [many_publish_step] in H.
  - destruct (nth_error (w_gs s) i) as [[[u c] p]|] eqn:HN; [|discriminate]. destruct p; try discriminate. destruct (Nat.ltb _ _) eqn:HL; [|discriminate]. injection H as <-.
    cbn [w_gs w_ch w_cap w_taken w_count w_closed]. rewrite app_length. cbn [length].
    pose proof (c_total_upd (fun g => match snd g with WWork => 3 | WSent => 1 | WFinished => 0 end) _ _ (u, c, WSent) _ HN) as U. cbn [snd] in U. lia.
  - destruct (nth_error (w_gs s) i) as [[[u c] p]|] eqn:HN; [|discriminate]. destruct p; try discriminate. injection H as <-.
    cbn [w_gs w_ch w_cap w_taken w_count w_closed].
    pose proof (c_total_upd (fun g => match snd g with WWork => 3 | WSent => 1 | WFinished => 0 end) _ _ (u, c, WFinished) _ HN) as U. cbn [snd] in U. lia.
  - destruct (w_ch s) as [|r ch] eqn:E; [discriminate|]. injection H as <-. cbn [w_gs w_ch w_cap w_taken w_count w_closed length]. lia.
  - destruct (_ && _) eqn:E; [|discriminate]. injection H as <-. apply andb_true_iff in E as [E1 E2]. cbn [w_gs w_ch w_cap w_taken w_count w_closed]. rewrite E2. cbn. lia.
Qed.

(** ** FetchManyReplaceable *)
Section Replaceable.
Context {K E : Type} (keqb : K -> K -> bool).
Hypothesis keqb_eq : forall a b, keqb a b = true <-> a = b.
Notation arr := (arrival K E).
(** What holds after a sequence of arrivals: the timestamp kept for a key is 0 or of an arrival with that key, and what is kept
    as a result is an arrival after which it is not strictly newer. *)
Definition RInv (l : list arr) (st : rmap K Z * rmap K arr) : Prop :=
  (forall k t, rget _ keqb k (fst st) = Some t -> t = 0%Z \/ exists b, In b l /\ a_key b = k /\ a_ts b = t) /\
  (forall k a, rget _ keqb k (snd st) = Some a -> exists l1 l2, l = l1 ++ a :: l2 /\ a_key a = k /\ ((a_ts a <= 0)%Z \/ exists b, In b l1 /\ a_key b = k /\ (a_ts a <= a_ts b)%Z)).
Lemma rinv_step l st a : RInv l st -> RInv (l ++ [a]) (fetch_one _ _ keqb st a).
Proof.
  intros [R1 R2]. destruct st as [latest results]. cbn [fst snd] in *. unfold fetch_one, check_replaceable.
  set (v := match rget _ keqb (a_key a) latest with Some x => x | None => 0%Z end).
  assert (V : v = 0%Z \/ exists b, In b l /\ a_key b = a_key a /\ a_ts b = v) by (subst v; destruct (rget _ keqb (a_key a) latest) as [x|] eqn:G; [exact (R1 _ _ G)|left; reflexivity]).
  assert (M1 : forall k t, (t = 0%Z \/ exists b, In b l /\ a_key b = k /\ a_ts b = t) -> t = 0%Z \/ exists b, In b (l ++ [a]) /\ a_key b = k /\ a_ts b = t).
  { intros k t [Q|(b & Q1 & Q2)]; [left; exact Q|right; exists b; split; [apply in_or_app; left; exact Q1|exact Q2]]. }
  assert (M2 : forall k x, rget _ keqb k results = Some x -> exists l1 l2, l ++ [a] = l1 ++ x :: l2 /\ a_key x = k /\ ((a_ts x <= 0)%Z \/ exists b, In b l1 /\ a_key b = k /\ (a_ts x <= a_ts b)%Z)).
  { intros k x Q. apply R2 in Q as (l1 & l2 & -> & Q). exists l1, (l2 ++ [a]). split; [rewrite <- app_assoc; reflexivity|exact Q]. }
  destruct (Z.ltb_spec v (a_ts a)) as [L|L]; split; cbn [fst snd].
  - intros k t Q. unfold rset in Q. cbn [rget] in Q. destruct (keqb k (a_key a)) eqn:X; [|exact (M1 _ _ (R1 _ _ Q))]. apply keqb_eq in X. injection Q as <-. right. exists a. split; [apply in_or_app; right; left; reflexivity|auto].
  - exact M2.
  - intros k t Q. unfold rset in Q. cbn [rget] in Q. destruct (keqb k (a_key a)) eqn:X; [|exact (M1 _ _ (R1 _ _ Q))]. apply keqb_eq in X. injection Q as <-. subst k. apply M1. exact V.
  - intros k x Q. unfold rset in Q. cbn [rget] in Q. destruct (keqb k (a_key a)) eqn:X; [|exact (M2 _ _ Q)]. apply keqb_eq in X. injection Q as <-. subst k.
    exists l, []. split; [reflexivity|split; [reflexivity|]]. destruct V as [V|(b & V1 & V2 & V3)]; [left; lia|right; exists b; split; [exact V1|split; [exact V2|lia]]].
Qed.
Lemma rinv_all l : RInv l (fold_left (fetch_one _ _ keqb) l ([], [])).
Proof.
  induction l as [|a l IH] using rev_ind; [split; cbn; discriminate|]. rewrite fold_left_app. cbn [fold_left]. apply rinv_step. exact IH.
Qed.
End Replaceable.

(** ** The penalty box *)
Definition failures (b : box) : Z := Z.of_nat (cnt (fun d => negb (snd d)) (b_dials b)).
Record BInv (b : box) : Prop := mkBI {
  bi_nil : b_nil b = false;
  bi_pen : match b_pen b with None => failures b = 0%Z | Some (n, rem) => n = failures b /\ (0 <= rem <= 30 + 2 ^ n)%Z end;
  bi_sleep : (0 < b_sleep b)%Z
}.
Local Opaque Z.add Z.pow.
Lemma box_inv_step a b b' : BInv b -> box_step a b = Some b' -> BInv b'.
Proof.
  intros [I1 I2 I3] H. destruct a as [ok| |dt|]; cbn [box_step] in H.
  - rewrite I1, andb_false_r in H. cbn [andb] in H. destruct (_ && _) in H; [injection H as <-; constructor; assumption|].
    destruct ok; injection H as <-; constructor; cbn [b_nil b_pen b_sleep]; auto.
    unfold failures in *. cbn [b_dials cnt snd negb]. unfold pen_get. destruct (b_pen b) as [[n r]|]; cbn [fst].
    + destruct I2 as [-> I2]. split; [lia|]. split; [|lia]. pose proof (Z.pow_nonneg 2 (Z.of_nat (cnt (fun d => negb (snd d)) (b_dials b)) + 1)). lia.
    + split; [lia|]. split; [|lia]. pose proof (Z.pow_nonneg 2 (0 + 1)). lia.
  - injection H as <-. constructor; assumption.
  - destruct (_ && _) in H; [|discriminate]. injection H as <-. constructor; assumption.
  - destruct (Z.eqb_spec (b_slept b) (b_sleep b)) as [Q|Q]; [|discriminate]. destruct (b_pen b) as [[n r]|] eqn:P.
    + cbv zeta in H. destruct (Z.leb_spec (r - b_sleep b) 0) as [Q2|Q2]; injection H as <-; constructor; cbn [b_nil b_pen b_sleep]; auto; try lia.
      * unfold failures in *. cbn [b_dials]. destruct I2 as [-> I2]. split; [reflexivity|lia].
      * unfold failures in *. cbn [b_dials]. destruct I2 as [-> I2]. split; [reflexivity|lia].
    + injection H as <-. constructor; cbn [b_nil b_pen b_sleep]; auto. lia.
Qed.
Local Transparent Z.add Z.pow.
Lemma box_inv b : reaches box_step box_init b -> BInv b.
Proof. apply (invariant box_step BInv); [constructor; cbn; auto; lia|intros a s1 s2 I H; eapply box_inv_step; eassumption]. Qed.
