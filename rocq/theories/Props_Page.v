(** C55, C56: paging through a store; several stores as one. *)
From Verif Require Import Base Machine PageModel PageProofs.
From Coq Require Import Permutation Sorted.
Import ListNotations.

(** ** C55. [answer cap store] is a relay with the events [store] that gives at most [cap] of them, the newest not newer than [until]. *)
Definition matching (until : Z) (store : list pevent) : list pevent := filter (fun e => Z.leb (p_ts e) until) store.

(** One relay that answers newest first: every matching event once, in order, and it ends. Missing: groups of events with one timestamp
    must be smaller than a page, and the oldest event must be alone at its timestamp. See the refutations. [grow] is how append
    enlarges an array. *)
Theorem C55_every_event_once_partial grow cap store until : ordered store -> NoDup (map p_id store) ->
  (forall t, length (filter (fun e => Z.eqb (p_ts e) t) (matching until store)) < cap) ->
  (forall l e, matching until store = l ++ [e] -> forall x, In x l -> p_ts x <> p_ts e) ->
  (Z.of_nat (length store) < 2 ^ 64)%Z ->
  paginate (S (length store)) grow until 0 false (answer cap store) = Some (matching until store).
Proof.
  intros O N G L B. unfold paginate. assert (X : global_limit 0 false = (2 ^ 64 - 1)%Z) by reflexivity. rewrite X. rewrite first_page; auto; [|intros l e Q|lia].
  - f_equal. fold (matching until store). apply firstn_all2. assert (length (matching until store) <= length store) by (unfold matching; clear; induction store as [|x l IH]; [reflexivity|]; cbn; destruct (Z.leb _ _); cbn; lia). lia.
  - fold (matching until store) in *. rewrite Q. unfold of_ts. rewrite filter_app. cbn [filter]. rewrite Z.eqb_refl.
    assert (E : filter (fun x => Z.eqb (p_ts x) (p_ts e)) l = []); [|rewrite E; reflexivity]. specialize (L l e Q). clear - L. induction l as [|x l IH]; [reflexivity|]. cbn. destruct (Z.eqb_spec (p_ts x) (p_ts e)) as [Q|Q].
    + exfalso. apply (L x); [left; reflexivity|exact Q].
    + apply IH. intros y Hy. apply L. right. exact Hy.
Qed.
(** With a limit, the newest so many. *)
Theorem C55_limit_partial grow cap store until limit : ordered store -> NoDup (map p_id store) ->
  (forall t, length (filter (fun e => Z.eqb (p_ts e) t) (matching until store)) < cap) ->
  (forall l e, matching until store = l ++ [e] -> forall x, In x l -> p_ts x <> p_ts e) -> (0 < limit < 2 ^ 63)%Z ->
  paginate (S (length store)) grow until limit false (answer cap store) = Some (firstn (Z.to_nat limit) (matching until store)).
Proof.
  intros O N G L B. unfold paginate. assert (X : global_limit limit false = limit). { unfold global_limit. rewrite Z.mod_small by lia. destruct (Z.eqb_spec limit 0); [lia|reflexivity]. }
  rewrite X. rewrite first_page; [reflexivity|assumption|assumption|assumption| |lia]. intros l e Q.
  fold (matching until store) in *. rewrite Q. unfold of_ts. rewrite filter_app. cbn [filter]. rewrite Z.eqb_refl.
  assert (E : filter (fun x => Z.eqb (p_ts x) (p_ts e)) l = []); [|rewrite E; reflexivity]. specialize (L l e Q). clear - L. induction l as [|x l IH]; [reflexivity|]. cbn. destruct (Z.eqb_spec (p_ts x) (p_ts e)) as [Q|Q].
  - exfalso. apply (L x); [left; reflexivity|exact Q].
  - apply IH. intros y Hy. apply L. right. exact Hy.
Qed.
(** In particular when no two events have the same timestamp and a page holds at least two. *)
Theorem C55_distinct_timestamps_partial grow cap store until : ordered store -> NoDup (map p_id store) -> NoDup (map p_ts store) -> 2 <= cap -> (Z.of_nat (length store) < 2 ^ 64)%Z ->
  paginate (S (length store)) grow until 0 false (answer cap store) = Some (matching until store).
Proof.
  intros O N D C B. assert (DM : NoDup (map p_ts (matching until store))).
  { clear - D. unfold matching. induction store as [|x l IH]; [constructor|]. cbn in *. apply NoDup_cons_iff in D as [D1 D2]. destruct (Z.leb _ _); [|auto]. cbn. constructor; [|auto]. intro Q. apply D1. apply in_map_iff in Q as (y & <- & Q). apply filter_In in Q. apply in_map. tauto. }
  apply C55_every_event_once_partial; auto.
  - intro t. assert (length (filter (fun e => Z.eqb (p_ts e) t) (matching until store)) <= 1); [|lia]. clear - DM. induction (matching until store) as [|x l IH]; [cbn; lia|]. cbn in *. apply NoDup_cons_iff in DM as [D1 D2].
    destruct (Z.eqb_spec (p_ts x) t) as [Q|Q]; [|auto]. assert (E : filter (fun e => Z.eqb (p_ts e) t) l = []); [|rewrite E; cbn; lia]. clear - D1 Q. induction l as [|y l IH]; [reflexivity|]. cbn in *. destruct (Z.eqb_spec (p_ts y) t); [exfalso; apply D1; left; congruence|]. apply IH. tauto.
  - intros l e Q x Hx X. rewrite Q, map_app in DM. cbn in DM. apply NoDup_remove_2 in DM. apply DM. rewrite app_nil_r, <- X. apply in_map. exact Hx.
Qed.
(** Whatever the relays answer, the limit is kept and only answered events are given. *)
Theorem C55_limit fuel grow until limit page out : (0 < limit < 2 ^ 63)%Z -> paginate fuel grow until limit false page = Some out ->
  (Z.of_nat (length out) <= limit)%Z /\ forall e, In e out -> exists u, In e (page u).
Proof.
  intros B H. unfold paginate in H. assert (X : global_limit limit false = limit). { unfold global_limit. rewrite Z.mod_small by lia. destruct (Z.eqb_spec limit 0); [lia|reflexivity]. }
  rewrite X in H. apply pages_out in H as ((l & -> & H1) & H2 & _). cbn [ps_count ps_out app] in *. split; [apply H2; [reflexivity|lia]|exact H1].
Qed.
Definition pe (id : string) (t : Z) : pevent := mkPE (B id) t.
Example C55_example : let store := [pe "a" 20; pe "b" 15; pe "c" 15; pe "d" 15; pe "e" 9; pe "f" 9; pe "g" 2] in
  ordered store /\ NoDup (map p_id store) /\ paginate 8 (fun n => 2 * n) 16 0 false (answer 4 store) = Some [pe "b" 15; pe "c" 15; pe "d" 15; pe "e" 9; pe "f" 9; pe "g" 2] /\
  paginate 8 (fun n => 2 * n) 30 3 false (answer 4 store) = Some [pe "a" 20; pe "b" 15; pe "c" 15].
Proof. cbv zeta. split; [repeat constructor; vm_compute; discriminate|]. split; [|split; vm_compute; reflexivity]. cbn. repeat constructor; cbn; intuition discriminate. Qed.

(** Finding: a page is only compared with the one before it. When the oldest events share a timestamp and the page border falls between
    them, they are given again. Pages of three, no more than two events at one timestamp. *)
Theorem C55_once_refuted : exists store, ordered store /\ NoDup (map p_id store) /\
  paginate 10 (fun n => 2 * n) 100 0 false (answer 3 store) = Some (store ++ [pe "c" 10; pe "d" 10]).
Proof. exists [pe "a" 12; pe "b" 11; pe "c" 10; pe "d" 10]. split; [repeat constructor; vm_compute; discriminate|]. split; [|vm_compute; reflexivity]. cbn. repeat constructor; cbn; intuition discriminate. Qed.
(** Finding: events older than a timestamp with a page full of events are never reached. *)
Theorem C55_every_event_refuted : exists store, ordered store /\ NoDup (map p_id store) /\
  paginate 10 (fun n => 2 * n) 100 0 false (answer 2 store) = Some [pe "a" 12; pe "b" 12] /\ In (pe "z" 5) (matching 100 store).
Proof. exists [pe "a" 12; pe "b" 12; pe "z" 5]. split; [repeat constructor; vm_compute; discriminate|]. split; [|split; [vm_compute; reflexivity|cbn; tauto]]. cbn. repeat constructor; cbn; intuition discriminate. Qed.
(** Finding: with two relays the next page starts at the oldest event of both; what the busier one has in between is never asked for. *)
Theorem C55_two_relays_refuted :
  paginate 10 (fun n => 2 * n) 100 0 false (fun u => answer 2 [pe "a" 30; pe "b" 29; pe "c" 28] u ++ answer 2 [pe "x" 30; pe "y" 3] u) = Some [pe "a" 30; pe "b" 29; pe "x" 30; pe "y" 3].
Proof. vm_compute. reflexivity. Qed.
(** Finding: both caches share one array, so new events overwrite the ids to compare with: if a page does not come in order
    (nothing keeps the order, C44) an event is given twice. *)
Theorem C55_shared_cache_refuted : exists page, paginate 10 (fun n => 2 * n) 100 0 false page = Some [pe "b" 10; pe "a" 12; pe "c" 9; pe "b" 10] /\
  (forall u, Permutation (page u) (answer 2 [pe "a" 12; pe "b" 10; pe "c" 9] u)).
Proof.
  exists (fun u => rev (answer 2 [pe "a" 12; pe "b" 10; pe "c" 9] u)). split; [vm_compute; reflexivity|]. intro u. symmetry. apply Permutation_rev.
Qed.
(** Finding: a limit of zero still gives one event if a relay sends one. *)
Theorem C55_limit_zero_refuted : paginate 10 (fun n => 2 * n) 100 0 true (answer 2 [pe "a" 12; pe "b" 11]) = Some [pe "a" 12].
Proof. vm_compute. reflexivity. Qed.

(** ** C56 *)
(** What slices.SortFunc promises for a comparison that is a strict weak order: a permutation in which no element is greater than a later one. *)
Definition sorts {E} (cmp : E -> E -> Z) (sort : list E -> list E) : Prop := forall l, Permutation (sort l) l /\ StronglySorted (fun a b => (cmp a b <= 0)%Z) (sort l).
(** The comparison is one. *)
Theorem C56_comparison_is_order E (ts : E -> Z) : let c := newest_first E ts in
  (forall a, c a a = 0%Z) /\ (forall a b, (c a b < 0 <-> c b a > 0)%Z) /\ (forall a b d, (c a b < 0)%Z -> (c b d < 0)%Z -> (c a d < 0)%Z) /\ (forall a b d, c a b = 0%Z -> c b d = 0%Z -> c a d = 0%Z).
Proof.
  cbv zeta. unfold newest_first. split; [|split; [|split]]; intros;
    repeat match goal with |- context [Z.ltb ?x ?y] => destruct (Z.ltb_spec x y) | H : context [Z.ltb ?x ?y] |- _ => destruct (Z.ltb_spec x y) end; try split; intros; try lia.
Qed.
(** All events of all stores, newest first, duplicates included; also those of stores that failed. *)
Theorem C56_query_sync St E (ts : E -> Z) query sort (stores : list St) : (forall cmp, cmp = newest_first E ts -> sorts cmp (sort cmp)) ->
  Permutation (fst (multi_query_sync St E ts query sort stores)) (concat (map (fun s => fst (query s)) stores)) /\
  StronglySorted (fun a b => (ts b <= ts a)%Z) (fst (multi_query_sync St E ts query sort stores)).
Proof.
  intro H. destruct (H _ eq_refl (concat (map (fun s => fst (query s)) stores))) as [H1 H2]. split; [exact H1|]. cbn [multi_query_sync fst].
  revert H2. generalize (sort (newest_first E ts) (concat (map (fun s => fst (query s)) stores))). intros l H2. induction H2 as [|x l S IH F]; constructor; auto. eapply Forall_impl; [|exact F]. intros y Q. cbn beta in Q. unfold newest_first in Q. destruct (Z.ltb_spec (ts x) (ts y)); lia.
Qed.
Lemma texts_nil l : texts l = [] <-> forall e, In e l -> e = None.
Proof.
  induction l as [|[x|] l IH]; cbn; split; auto; try discriminate.
  - intros _ e [].
  - intro H. specialize (H (Some x) (or_introl eq_refl)). discriminate.
  - intros H e [<-|He]; [reflexivity|]. apply IH; auto.
  - intro H. apply IH. intros e He. apply H. auto.
Qed.
(** No error exactly if no store failed; otherwise the error text contains that of every store that failed. *)
Lemma join_nil l : errors_join l = None <-> forall e, In e l -> e = None.
Proof. unfold errors_join. rewrite <- texts_nil. destruct (texts l); split; auto; discriminate. Qed.
Lemma join_texts_contains x r : In x r -> exists a b, join_texts r = a ++ x ++ b.
Proof.
  induction r as [|y r IH]; intros HX; [destruct HX|]. cbn [join_texts]. destruct HX as [->|HX].
  - destruct r; [exists [], []; rewrite app_nil_r; reflexivity|]. eexists [], _. reflexivity.
  - destruct r as [|z r]; [destruct HX|]. destruct (IH HX) as (a & b & ->). exists (y ++ byte_of 10 :: a), b. rewrite <- app_assoc. reflexivity.
Qed.
Lemma join_contains l t x : errors_join l = Some t -> In (Some x) l -> exists a b, t = a ++ x ++ b.
Proof.
  intros H HI. assert (HX : In x (texts l)) by (clear H; induction l as [|[y|] l IH]; cbn in *; [destruct HI|destruct HI as [HI|HI]; [left; congruence|right; auto]|destruct HI as [HI|HI]; [discriminate|auto]]).
  apply join_texts_contains in HX as (a & b & Q). exists a, b. rewrite <- Q. unfold errors_join in H. destruct (texts l); [discriminate|]. congruence.
Qed.
Theorem C56_query_errors St E (ts : E -> Z) query sort (stores : list St) :
  (snd (multi_query_sync St E ts query sort stores) = None <-> forall s, In s stores -> snd (query s) = None) /\
  (forall t s x, snd (multi_query_sync St E ts query sort stores) = Some t -> In s stores -> snd (query s) = Some x -> exists a b, t = a ++ x ++ b).
Proof.
  cbn [multi_query_sync snd]. split.
  - rewrite join_nil. split; [intros H s Hs; apply H, (in_map (fun s => snd (query s))), Hs|intros H e He; apply in_map_iff in He as (s & <- & Hs); auto].
  - intros t s x H Hs Q. eapply join_contains; [exact H|]. apply in_map_iff. exists s. auto.
Qed.
(** Publish reaches every store once, in place, and reports likewise. *)
Theorem C56_publish St E pub (stores : list St) (e : E) :
  (length (fst (multi_publish St E pub stores e)) = length stores) /\
  (forall i s, nth_error stores i = Some s -> nth_error (fst (multi_publish St E pub stores e)) i = Some (fst (pub s e))) /\
  (snd (multi_publish St E pub stores e) = None <-> forall s, In s stores -> snd (pub s e) = None) /\
  (forall t s x, snd (multi_publish St E pub stores e) = Some t -> In s stores -> snd (pub s e) = Some x -> exists a b, t = a ++ x ++ b).
Proof.
  cbn [multi_publish fst snd]. split; [apply map_length|]. split; [intros i s H; apply (map_nth_error (fun s => fst (pub s e)) i stores H)|]. split.
  - rewrite join_nil. split; [intros H s Hs; apply H, (in_map (fun s => snd (pub s e))), Hs|intros H x He; apply in_map_iff in He as (s & <- & Hs); auto].
  - intros t s x H Hs Q. eapply join_contains; [exact H|]. apply in_map_iff. exists s. auto.
Qed.
(** A sort with the promise exists, so the hypothesis of C56_query_sync can be met. *)
Fixpoint insert_by {E} (cmp : E -> E -> Z) (x : E) (l : list E) : list E := match l with [] => [x] | y :: r => if Z.leb (cmp x y) 0 then x :: y :: r else y :: insert_by cmp x r end.
Definition sort_by {E} (cmp : E -> E -> Z) (l : list E) : list E := fold_right (insert_by cmp) [] l.
Lemma insert_perm {E} (cmp : E -> E -> Z) x l : Permutation (insert_by cmp x l) (x :: l).
Proof. induction l as [|y r IH]; [reflexivity|]. cbn. destruct (Z.leb _ _); [reflexivity|]. rewrite IH. apply perm_swap. Qed.
Lemma sort_by_sorts E (ts : E -> Z) cmp : cmp = newest_first E ts -> sorts cmp (sort_by cmp).
Proof.
  intros -> l. split.
  - induction l as [|x l IH]; [reflexivity|]. cbn. rewrite insert_perm, IH. reflexivity.
  - induction l as [|x l IH]; [constructor|]. cbn [sort_by fold_right]. fold (sort_by (newest_first E ts) l). revert IH. generalize (sort_by (newest_first E ts) l). clear l. intros l S. induction S as [|y l S IH F]; [repeat constructor|]. cbn [insert_by].
    destruct (Z.leb_spec (newest_first E ts x y) 0) as [Q|Q].
    + constructor; [constructor; assumption|]. constructor; [exact Q|]. eapply Forall_impl; [|exact F]. intros z Z. cbn beta in Z. unfold newest_first in *. repeat match goal with H : context [Z.ltb ?a ?b] |- _ => destruct (Z.ltb_spec a b) | |- context [Z.ltb ?a ?b] => destruct (Z.ltb_spec a b) end; lia.
    + constructor; [exact IH|]. rewrite insert_perm. constructor; [|exact F]. unfold newest_first in *. repeat match goal with H : context [Z.ltb ?a ?b] |- _ => destruct (Z.ltb_spec a b) | |- context [Z.ltb ?a ?b] => destruct (Z.ltb_spec a b) end; lia.
Qed.
Example C56_example : (forall cmp, cmp = newest_first pevent p_ts -> sorts cmp (sort_by cmp)) /\
  multi_query_sync nat pevent p_ts (fun i => match i with 0 => ([pe "a" 3; pe "b" 9], None) | _ => ([pe "c" 5; pe "b" 9], Some (B "slow")) end) sort_by [0; 1] =
  ([pe "b" 9; pe "b" 9; pe "c" 5; pe "a" 3], Some (B "slow")).
Proof. split; [apply sort_by_sorts|vm_compute; reflexivity]. Qed.

(** QueryEvents: when nothing is left to forward, what was given is all the events of the stores that answered, each store's in its order. *)
Definition given {E} (i : nat) (out : list (nat * E)) : list E := map snd (filter (fun p => Nat.eqb (fst p) i) out).
Lemma given_app {E} i (a b : list (nat * E)) : given i (a ++ b) = given i a ++ given i b.
Proof. unfold given. rewrite filter_app, map_app. reflexivity. Qed.
Theorem C56_query_events E (answers : list (list E + str)) s0 s : multi_query_events answers = inl s0 -> reaches mq_step s0 s ->
  (forall a, mq_step a s = None) -> length (mq_fwds s) = length (goods answers) /\ (forall i c, nth_error (goods answers) i = Some c -> given i (mq_out s) = c) /\ (forall i e, In (i, e) (mq_out s) -> i < length (goods answers)).
Proof.
  intros H R Q. set (I := fun s : mq E => length (mq_fwds s) = length (goods answers) /\ (forall i c, nth_error (goods answers) i = Some c -> exists f, nth_error (mq_fwds s) i = Some f /\ given i (mq_out s) ++ f_todo f = c) /\ (forall i e, In (i, e) (mq_out s) -> i < length (goods answers))).
  assert (IS : I s).
  { revert s R Q. assert (G : forall s, reaches mq_step s0 s -> I s); [|auto]. apply invariant.
    - unfold multi_query_events in H. destruct (goods answers) as [|g gs] eqn:EG; [discriminate|]. injection H as <-. unfold I. cbn [mq_fwds mq_out]. split; [cbn [length]; rewrite map_length; reflexivity|]. split; [|intros i e []].
      intros i c Hc. exists (mkFwd c false). split; [apply (map_nth_error (fun c => mkFwd c false) i (g :: gs) Hc)|reflexivity].
    - intros a s1 s2 (I1 & I2 & I3) ST. destruct a as [i|i]; cbn [mq_step] in ST; destruct (nth_error (mq_fwds s1) i) as [f|] eqn:EF; try discriminate; destruct (f_todo f) as [|e r] eqn:ET; try discriminate.
      + injection ST as <-. unfold I; cbn [mq_fwds mq_out]. rewrite upd_length. split; [exact I1|]. split.
        * intros j c Hc. destruct (I2 j c Hc) as (f' & F1 & F2). destruct (Nat.eq_dec i j) as [<-|NE].
          -- exists (mkFwd r (f_done f)). split; [apply nth_upd_same; exact (nth_lt _ _ _ EF)|]. rewrite EF in F1. injection F1 as <-. rewrite given_app. unfold given at 2. cbn [filter fst]. rewrite Nat.eqb_refl. cbn [map snd f_todo]. rewrite <- F2, ET, <- app_assoc. reflexivity.
          -- exists f'. split; [rewrite nth_upd_other by exact NE; exact F1|]. rewrite given_app. unfold given at 2. cbn [filter fst]. destruct (Nat.eqb_spec i j); [contradiction|]. cbn [map]. rewrite app_nil_r. exact F2.
        * intros j x Hx. apply in_app_or in Hx as [Hx|[Hx|[]]]; [exact (I3 _ _ Hx)|]. injection Hx as <- _. rewrite <- I1. exact (nth_lt _ _ _ EF).
      + destruct (f_done f); [discriminate|]. injection ST as <-. unfold I; cbn [mq_fwds mq_out]. rewrite upd_length. split; [exact I1|]. split; [|exact I3].
        intros j c Hc. destruct (I2 j c Hc) as (f' & F1 & F2). destruct (Nat.eq_dec i j) as [<-|NE].
        * exists (mkFwd [] true). split; [apply nth_upd_same; exact (nth_lt _ _ _ EF)|]. rewrite EF in F1. injection F1 as <-. rewrite ET in F2. exact F2.
        * exists f'. split; [rewrite nth_upd_other by exact NE; exact F1|exact F2]. }
  destruct IS as (I1 & I2 & I3). split; [exact I1|]. split; [|exact I3]. intros i c Hc. destruct (I2 i c Hc) as (f & F1 & F2). specialize (Q (QForward i)). cbn in Q. rewrite F1 in Q. destruct (f_todo f); [rewrite app_nil_r in F2; exact F2|discriminate].
Qed.
(** An error exactly when no store answered, and then it is that of all stores; no error without stores, and no channel either. *)
Definition by_lines (l : list str) : str := match l with [] => [] | x :: r => x ++ flat_map (fun y => byte_of 10 :: y) r end.
Lemma join_lines l : join_texts l = by_lines l.
Proof.
  destruct l as [|x l]; [reflexivity|]. revert x. induction l as [|y l IH]; intro x; [cbn; rewrite app_nil_r; reflexivity|]. change (join_texts (x :: y :: l)) with (x ++ byte_of 10 :: join_texts (y :: l)). rewrite IH. reflexivity.
Qed.
Theorem C56_query_events_error E (answers : list (list E + str)) e : multi_query_events answers = inr e <->
  exists errs, answers = map inr errs /\ e = match errs with [] => None | _ => Some (by_lines errs) end.
Proof.
  assert (T : forall errs : list str, texts (bads (E := E) (map inr errs)) = errs) by (induction errs as [|x errs IH]; [reflexivity|cbn; f_equal; exact IH]).
  assert (G : forall errs : list str, goods (E := E) (map inr errs) = []) by (induction errs as [|x errs IH]; [reflexivity|exact IH]).
  unfold multi_query_events. split.
  - destruct (goods answers) eqn:Q; [|discriminate]. intro H. assert (X : exists errs, answers = map inr errs).
    { clear H. revert Q. induction answers as [|[c|x] l IH]; cbn [goods]; intro Q; [exists []; reflexivity|discriminate|]. destruct (IH Q) as [errs ->]. exists (x :: errs). reflexivity. }
    destruct X as [errs ->]. exists errs. split; [reflexivity|]. unfold errors_join in H. rewrite T in H. destruct errs; [congruence|]. rewrite join_lines in H. congruence.
  - intros (errs & -> & ->). rewrite G. unfold errors_join. rewrite T. destruct errs; [reflexivity|]. rewrite join_lines. reflexivity.
Qed.
(** Finding: the channel is never closed, so a reader that ranges over it waits forever; errors of some stores are lost when another answered. *)
Theorem C56_query_events_closed_refuted : exists s0 s, multi_query_events [inl [pe "a" 1]; inr (B "down")] = inl s0 /\ exec mq_step [QForward 0; QLeave 0] s0 = Some s /\ (forall a, mq_step a s = None) /\ mq_closed s = false.
Proof. eexists. eexists. split; [reflexivity|]. split; [vm_compute; reflexivity|]. split; [|reflexivity]. intros [i|i]; destruct i as [|[|i]]; reflexivity. Qed.
Theorem C56_never_closed E (answers : list (list E + str)) s0 s : multi_query_events answers = inl s0 -> reaches mq_step s0 s -> mq_closed s = false.
Proof.
  intros H. apply (invariant mq_step (fun s => mq_closed s = false)).
  - unfold multi_query_events in H. destruct (goods answers); [discriminate|]. injection H as <-. reflexivity.
  - intros [i|i] s1 s2 C ST; cbn [mq_step] in ST; destruct (nth_error (mq_fwds s1) i) as [f|]; try discriminate; destruct (f_todo f); try discriminate; [|destruct (f_done f); [discriminate|]]; injection ST as <-; exact C.
Qed.

Print Assumptions C55_every_event_once_partial.
Print Assumptions C55_limit_partial.
Print Assumptions C55_distinct_timestamps_partial.
Print Assumptions C55_limit.
Print Assumptions C55_once_refuted.
Print Assumptions C55_every_event_refuted.
Print Assumptions C55_two_relays_refuted.
Print Assumptions C55_shared_cache_refuted.
Print Assumptions C55_limit_zero_refuted.
Print Assumptions C56_comparison_is_order.
Print Assumptions C56_query_sync.
Print Assumptions C56_query_errors.
Print Assumptions C56_publish.
Print Assumptions C56_query_events.
Print Assumptions C56_query_events_closed_refuted.
Print Assumptions C56_never_closed.

Print Assumptions C56_query_events_error.
