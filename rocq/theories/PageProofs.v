(** Paging: what one page does, the loop. *)
From Verif Require Import Base Machine PageModel.
From Coq Require Import Permutation Sorted.
Import ListNotations.

Definition ids (l : list pevent) : list str := map p_id l.
Lemma has_id id l : existsb (seqb id) l = true <-> In id l.
Proof.
  rewrite existsb_exists. split.
  - intros (x & H & Q). apply seqb_eq in Q. subst. exact H.
  - intro H. exists id. split; [exact H|apply seqb_refl].
Qed.
Lemma has_id_false id l : ~ In id l -> existsb (seqb id) l = false.
Proof. intro H. destruct (existsb (seqb id) l) eqn:E; [|reflexivity]. apply has_id in E. contradiction. Qed.

(** Events already in the cache change nothing. *)
Lemma page_repeated grow limit l r s : (forall e, In e l -> In (p_id e) (pc_rep (ps_cache s))) -> one_page grow limit (l ++ r) s = one_page grow limit r s.
Proof.
  induction l as [|e l IH]; intro H; [reflexivity|]. cbn [app one_page]. assert (Q : existsb (seqb (p_id e)) (pc_rep (ps_cache s)) = true) by (apply has_id, H; left; reflexivity).
  rewrite Q. apply IH. intros x Hx. apply H. right. exact Hx.
Qed.
Lemma upd_in {X} (l : list X) i x y : In y (upd l i x) -> y = x \/ In y l.
Proof. revert i. induction l as [|z l IH]; intros [|i] H; cbn in *; auto; [destruct H; auto|]. destruct H as [H|H]; auto. apply IH in H. tauto. Qed.
Lemma append_rep grow id c x : In x (pc_rep (pc_append grow id c)) -> x = id \/ In x (pc_rep c).
Proof. unfold pc_append. destruct (Nat.ltb _ _); cbn [pc_rep]; [|auto]. destruct (pc_shared c); [apply upd_in|auto]. Qed.
Lemma append_next grow id c : pc_next (pc_append grow id c) = pc_next c ++ [id].
Proof. unfold pc_append. destruct (Nat.ltb _ _); reflexivity. Qed.

(** The smallest timestamp of a page and what went before. *)
Definition min_ts (u : Z) (l : list pevent) : Z := fold_left (fun u e => if Z.ltb (p_ts e) u then p_ts e else u) l u.
(** A page of new events, with room left in the limit. *)
Lemma page_new grow limit l s : NoDup (ids l) -> (forall e, In e l -> ~ In (p_id e) (pc_rep (ps_cache s))) -> (ps_count s + Z.of_nat (length l) < limit)%Z ->
  exists s', one_page grow limit l s = (s', false) /\ ps_until s' = min_ts (ps_until s) l /\ ps_out s' = ps_out s ++ l /\
    ps_count s' = (ps_count s + Z.of_nat (length l))%Z /\ pc_next (ps_cache s') = pc_next (ps_cache s) ++ ids l /\ ps_keep s' = (ps_keep s || negb (Nat.eqb (length l) 0))%bool.
Proof.
  revert s. induction l as [|e l IH]; intros s ND N L.
  - exists s. cbn. rewrite !app_nil_r, orb_false_r. repeat split. lia.
  - cbn [one_page]. rewrite has_id_false by (apply N; left; reflexivity). cbn [length] in L. destruct (Z.leb_spec limit (ps_count s + 1)) as [Q|Q]; [lia|].
    apply NoDup_cons_iff in ND as [ND1 ND2].
    destruct (IH (mkPS (pc_append grow (p_id e) (ps_cache s)) (if Z.ltb (p_ts e) (ps_until s) then p_ts e else ps_until s) (ps_out s ++ [e]) (ps_count s + 1)%Z true)) as (s' & H1 & H2 & H3 & H4 & H5 & H6); cbn [ps_cache ps_count ps_until ps_out ps_keep] in *.
    + exact ND2.
    + intros x Hx HI. apply append_rep in HI as [HI|HI]; [apply ND1; rewrite <- HI; apply in_map; exact Hx|]. apply (N x); [right; exact Hx|exact HI].
    + lia.
    + exists s'. split; [exact H1|]. split; [exact H2|]. split; [rewrite H3, <- app_assoc; reflexivity|]. split; [rewrite H4; cbn [length]; lia|]. split.
      * rewrite H5, append_next, <- app_assoc. reflexivity.
      * rewrite H6. cbn. rewrite orb_true_r. reflexivity.
Qed.
(** ... and one that reaches the limit. *)
Lemma page_full grow limit l s : NoDup (ids l) -> (forall e, In e l -> ~ In (p_id e) (pc_rep (ps_cache s))) -> (ps_count s < limit <= ps_count s + Z.of_nat (length l))%Z ->
  exists s', one_page grow limit l s = (s', true) /\ ps_out s' = ps_out s ++ firstn (Z.to_nat (limit - ps_count s)) l.
Proof.
  revert s. induction l as [|e l IH]; intros s ND N L; cbn [length] in L; [lia|].
  cbn [one_page]. rewrite has_id_false by (apply N; left; reflexivity). destruct (Z.leb_spec limit (ps_count s + 1)) as [Q|Q].
  - replace (limit - ps_count s)%Z with 1%Z by lia. eexists. split; reflexivity.
  - apply NoDup_cons_iff in ND as [ND1 ND2].
    destruct (IH (mkPS (pc_append grow (p_id e) (ps_cache s)) (if Z.ltb (p_ts e) (ps_until s) then p_ts e else ps_until s) (ps_out s ++ [e]) (ps_count s + 1)%Z true)) as (s' & H1 & H2); cbn [ps_cache ps_count ps_until ps_out ps_keep] in *.
    + exact ND2.
    + intros x Hx HI. apply append_rep in HI as [HI|HI]; [apply ND1; rewrite <- HI; apply in_map; exact Hx|]. apply (N x); [right; exact Hx|exact HI].
    + lia.
    + exists s'. split; [exact H1|]. rewrite H2, <- app_assoc. replace (Z.to_nat (limit - ps_count s)) with (S (Z.to_nat (limit - (ps_count s + 1)))) by lia. reflexivity.
Qed.

(** Newest first. *)
Definition ordered (l : list pevent) : Prop := StronglySorted (fun a b => (p_ts b <= p_ts a)%Z) l.
Lemma ordered_app a b : ordered (a ++ b) -> ordered a /\ ordered b /\ forall x y, In x a -> In y b -> (p_ts y <= p_ts x)%Z.
Proof.
  induction a as [|x a IH]; intro H; [split; [constructor|split; [exact H|intros x y []]]|]. cbn [app] in H. apply StronglySorted_inv in H as [H1 H2]. destruct (IH H1) as (I1 & I2 & I3).
  rewrite Forall_app in H2. destruct H2 as [H2 H3]. split; [constructor; assumption|split; [exact I2|]]. intros u v [<-|Hu] Hv; [rewrite Forall_forall in H3; auto|auto].
Qed.
Lemma ordered_filter f l : ordered l -> ordered (filter f l).
Proof.
  induction l as [|x l IH]; intro H; [constructor|]. apply StronglySorted_inv in H as [H1 H2]. cbn. destruct (f x); [|auto]. constructor; [apply IH, H1|].
  rewrite Forall_forall in *. intros y Hy. apply filter_In in Hy. apply H2. tauto.
Qed.
Lemma min_ts_last u l e : ordered (l ++ [e]) -> (p_ts e <= u)%Z -> min_ts u (l ++ [e]) = p_ts e.
Proof.
  intros O L. unfold min_ts. rewrite fold_left_app. cbn [fold_left]. 
  assert (G : forall l u, (forall x, In x l -> (p_ts e <= p_ts x)%Z) -> (p_ts e <= u)%Z -> (p_ts e <= fold_left (fun u e => if Z.ltb (p_ts e) u then p_ts e else u) l u)%Z).
  { clear. induction l as [|y l IH]; intros u H L; [exact L|]. cbn [fold_left]. apply IH; [intros x Hx; apply H; right; exact Hx|]. destruct (Z.ltb (p_ts y) u); [apply H; left; reflexivity|exact L]. }
  apply ordered_app in O as (_ & _ & O). assert (H := G l u (fun x Hx => O x e Hx (or_introl eq_refl)) L). clear G.
  destruct (Z.ltb_spec (p_ts e) (fold_left (fun u e => if Z.ltb (p_ts e) u then p_ts e else u) l u)); lia.
Qed.
Lemma filter_all {X} (f : X -> bool) l : (forall x, In x l -> f x = true) -> filter f l = l.
Proof. induction l as [|x l IH]; intro H; [reflexivity|]. cbn. rewrite H by (left; reflexivity). rewrite IH; [reflexivity|]. intros y Hy. apply H. right. exact Hy. Qed.
Lemma filter_filter {X} (f g : X -> bool) l : filter f (filter g l) = filter (fun x => f x && g x) l.
Proof. induction l as [|x l IH]; [reflexivity|]. cbn. destruct (g x); cbn; rewrite IH, ?andb_true_r, ?andb_false_r; reflexivity. Qed.
Definition of_ts (t : Z) (l : list pevent) : list pevent := filter (fun e => Z.eqb (p_ts e) t) l.

Lemma pages_S f grow limit page s : pages (S f) grow limit page s =
  (let '(s1, full) := one_page grow limit (page (ps_until s)) (mkPS (ps_cache s) (ps_until s) (ps_out s) (ps_count s) false) in
   if full then Some (ps_out s1) else if negb (ps_keep s1) then Some (ps_out s1)
   else pages f grow limit page (mkPS (pc_turn (ps_cache s1)) (ps_until s1) (ps_out s1) (ps_count s1) (ps_keep s1))).
Proof. reflexivity. Qed.
Section Loop.
Variables (grow : nat -> nat) (limit : Z) (cap : nat) (store : list pevent) (until0 : Z).
Let T := filter (fun e => Z.leb (p_ts e) until0) store.
Hypothesis sorted : ordered store.
Hypothesis nodup : NoDup (ids store).
Hypothesis groups : forall t, length (of_ts t T) < cap.
Hypothesis oldest : forall l e, T = l ++ [e] -> of_ts (p_ts e) T = [e].
Hypothesis limit_pos : (0 < limit)%Z.

Lemma T_ordered : ordered T. Proof. apply ordered_filter. exact sorted. Qed.
Lemma T_nodup : NoDup (ids T).
Proof. unfold T, ids. clear - nodup. induction store as [|x l IH]; [constructor|]. cbn in *. apply NoDup_cons_iff in nodup as [N1 N2]. destruct (Z.leb _ _); [|auto]. cbn. constructor; [|auto]. intro H. apply N1. apply in_map_iff in H as (y & <- & H). apply filter_In in H. apply in_map. tauto. Qed.
Lemma answer_T u : (u <= until0)%Z -> answer cap store u = firstn cap (filter (fun e => Z.leb (p_ts e) u) T).
Proof. intro H. unfold answer, T. rewrite filter_filter. f_equal. apply filter_ext. intro e. destruct (Z.leb_spec (p_ts e) u), (Z.leb_spec (p_ts e) until0); cbn; auto; lia. Qed.
Lemma NoDup_app_inv {X} (a b : list X) : NoDup (a ++ b) -> NoDup a /\ NoDup b /\ forall x, In x a -> ~ In x b.
Proof.
  induction a as [|x a IH]; intro H; [split; [constructor|split; [exact H|intros x []]]|]. cbn in H. apply NoDup_cons_iff in H as [H1 H2]. destruct (IH H2) as (I1 & I2 & I3). split; [|split; [exact I2|]].
  - constructor; [|exact I1]. intro Q. apply H1. apply in_or_app. auto.
  - intros y [<-|Hy]; [|auto]. intro Q. apply H1. apply in_or_app. auto.
Qed.

(** After some pages: [E] has been given, [R] is left. *)
Lemma loop n E R e s : length R <= n -> T = (E ++ [e]) ++ R -> ps_out s = E ++ [e] -> ps_until s = p_ts e -> ps_count s = Z.of_nat (length (E ++ [e])) -> (ps_count s < limit)%Z ->
  (forall x, In x (E ++ [e]) -> p_ts x = p_ts e -> In (p_id x) (pc_rep (ps_cache s))) -> (forall i, In i (pc_rep (ps_cache s)) -> In i (ids (E ++ [e]))) -> pc_next (ps_cache s) = [] ->
  pages (S n) grow limit (answer cap store) s = Some (firstn (Z.to_nat limit) T).
Proof.
  revert E R e s. induction n as [|n IH]; intros E R e s LR HT HO HU HC HL HR1 HR2 HN.
  all: pose proof T_ordered as OT; pose proof T_nodup as NT; rewrite HT in OT, NT; pose proof (ordered_app _ _ OT) as (OE & OR & OER);
    unfold ids in NT; rewrite map_app in NT; pose proof (NoDup_app_inv _ _ NT) as (NE & NR & NER).
  all: assert (IT : In e T) by (rewrite HT; apply in_or_app; left; apply in_or_app; right; left; reflexivity).
  all: assert (UT : (p_ts e <= until0)%Z) by (unfold T in IT; apply filter_In in IT as [_ IT]; lia).
  all: assert (A : answer cap store (ps_until s) = of_ts (p_ts e) (E ++ [e]) ++ firstn (cap - length (of_ts (p_ts e) (E ++ [e]))) R).
  1,3: (rewrite HU, answer_T by exact UT; rewrite HT, filter_app, (filter_all _ R);
    [|intros x Hx; apply Z.leb_le, OER; [apply in_or_app; right; left; reflexivity|exact Hx]];
    assert (FE : filter (fun x => Z.leb (p_ts x) (p_ts e)) (E ++ [e]) = of_ts (p_ts e) (E ++ [e]));
    [ apply filter_ext_in; intros x Hx; assert ((p_ts e <= p_ts x)%Z) by (apply ordered_app in OE as (_ & _ & OE); apply in_app_or in Hx as [Hx|[<-|[]]]; [apply OE; [exact Hx|left; reflexivity]|lia]);
      destruct (Z.leb_spec (p_ts x) (p_ts e)), (Z.eqb_spec (p_ts x) (p_ts e)); auto; lia
    | rewrite FE, firstn_app; f_equal; apply firstn_all2; pose proof (groups (p_ts e)) as G; rewrite HT in G; unfold of_ts in *; rewrite filter_app, app_length in G; lia ]).
  all: assert (G : length (of_ts (p_ts e) (E ++ [e])) < cap) by (pose proof (groups (p_ts e)) as G; rewrite HT in G; unfold of_ts in *; rewrite filter_app, app_length in G; lia).
  all: rewrite pages_S, A, page_repeated by (cbn [ps_cache]; intros x Hx; unfold of_ts in Hx; apply filter_In in Hx as [Hx Q]; apply HR1; [exact Hx|lia]).
  - destruct R; [|cbn in LR; lia]. rewrite firstn_nil. cbn. rewrite HO. f_equal. rewrite HT, app_nil_r. symmetry. apply firstn_all2. lia.
  - set (R1 := firstn (cap - length (of_ts (p_ts e) (E ++ [e]))) R) in *. set (R2 := skipn (cap - length (of_ts (p_ts e) (E ++ [e]))) R).
    assert (RR : R = R1 ++ R2) by (symmetry; apply firstn_skipn). 
    assert (NR1 : NoDup (ids R1)) by (rewrite RR, map_app in NR; apply NoDup_app_inv in NR; tauto).
    assert (NEW : forall x, In x R1 -> ~ In (p_id x) (pc_rep (ps_cache s))).
    { intros x Hx Q. apply HR2 in Q. apply (NER _ Q). apply in_map. rewrite RR. apply in_or_app. left. exact Hx. }
    destruct (Z.lt_ge_cases (ps_count s + Z.of_nat (length R1)) limit) as [LL|LL].
    + destruct (page_new grow limit R1 (mkPS (ps_cache s) (ps_until s) (ps_out s) (ps_count s) false)) as (s' & P1 & P2 & P3 & P4 & P5 & P6); cbn [ps_cache ps_count ps_until ps_out ps_keep]; auto.
      rewrite P1. cbn [ps_cache ps_count ps_until ps_out ps_keep] in *. rewrite P6. cbn [orb].
      destruct R as [|r0 R'] eqn:ER.
      * replace R1 with (@nil pevent) in * by (unfold R1; rewrite firstn_nil; reflexivity). cbn. rewrite P3, HO, app_nil_r. f_equal. rewrite HT, app_nil_r. symmetry. apply firstn_all2. lia.
      * assert (R1 <> []) by (unfold R1; destruct (cap - length (of_ts (p_ts e) (E ++ [e]))) eqn:Q; [lia|discriminate]).
        destruct (exists_last H) as (R0 & e' & ER1). 
        assert (LE' : (p_ts e' <= p_ts e)%Z) by (apply OER; [apply in_or_app; right; left; reflexivity|rewrite RR, ER1; apply in_or_app; left; apply in_or_app; right; left; reflexivity]).
        rewrite ER1 at 1. rewrite app_length. cbn [length]. rewrite Nat.add_1_r. cbn [Nat.eqb negb].
        assert (O1 : ordered (R0 ++ [e'])) by (rewrite RR, ER1 in OR; apply ordered_app in OR; tauto).
        assert (STRICT : (p_ts e' < p_ts e)%Z).
        { destruct (Z.eq_dec (p_ts e') (p_ts e)) as [Q|Q]; [exfalso|lia].
          assert (ALL : of_ts (p_ts e) R1 = R1). { unfold of_ts. apply filter_all. intros x Hx. rewrite ER1 in Hx. assert ((p_ts e' <= p_ts x)%Z) by (apply ordered_app in O1 as (_ & _ & O1); apply in_app_or in Hx as [Hx|[<-|[]]]; [apply O1; [exact Hx|left; reflexivity]|lia]).
            assert ((p_ts x <= p_ts e)%Z) by (apply OER; [apply in_or_app; right; left; reflexivity|rewrite RR, ER1; apply in_or_app; left; exact Hx]). lia. }
          destruct (Nat.lt_ge_cases (length (r0 :: R')) (cap - length (of_ts (p_ts e) (E ++ [e])))) as [X|X].
          - (* the last group is split *) assert (R1 = r0 :: R') by (unfold R1; apply firstn_all2; lia). rewrite H0 in *. 
            assert (TT : T = ((E ++ [e]) ++ R0) ++ [e']) by (rewrite HT, ER1, app_assoc; reflexivity). apply oldest in TT. rewrite Q, HT in TT. unfold of_ts in TT, ALL. rewrite filter_app, filter_app in TT. 
            apply (f_equal (@length _)) in TT. rewrite !app_length, ALL in TT. cbn [filter] in TT. rewrite Z.eqb_refl in TT. cbn [length] in TT. lia.
          - assert (length R1 = cap - length (of_ts (p_ts e) (E ++ [e]))) by (unfold R1; apply firstn_length_le; lia).
            pose proof (groups (p_ts e)) as GG. rewrite HT, RR in GG. unfold of_ts in GG, ALL, H0. rewrite !filter_app, !app_length, ALL in GG. rewrite !filter_app, !app_length in H0. lia. }
        apply (IH (E ++ [e] ++ R0) R2 e').
        -- assert (length (r0 :: R') = length R1 + length R2) by (rewrite RR, app_length; reflexivity). rewrite ER1, app_length in H0. cbn [length] in *. lia.
        -- rewrite HT, RR, ER1. rewrite <- !app_assoc. reflexivity.
        -- cbn [ps_out]. rewrite P3, HO, ER1, <- !app_assoc. reflexivity.
        -- cbn [ps_until]. rewrite P2, ER1, HU. apply min_ts_last; [exact O1|exact LE'].
        -- cbn [ps_count]. rewrite P4, HC, ER1, !app_length. cbn [length]. lia.
        -- cbn [ps_count]. lia.
        -- cbn [ps_cache pc_turn pc_rep]. rewrite P5, HN. cbn [app]. intros x Hx Q. rewrite ER1. apply in_map. rewrite <- !app_assoc in Hx. apply in_app_or in Hx as [Hx|Hx].
           ++ apply ordered_app in OE as (_ & _ & OE). specialize (OE x e Hx (or_introl eq_refl)). lia.
           ++ cbn [app] in Hx. destruct Hx as [<-|Hx]; [lia|]. exact Hx.
        -- cbn [ps_cache pc_turn pc_rep]. rewrite P5, HN. cbn [app]. intros i Hi. unfold ids in *. rewrite ER1 in Hi. rewrite <- !app_assoc. cbn [app]. rewrite map_app. apply in_or_app. right. cbn [map]. right. exact Hi.
        -- reflexivity.
    + destruct (page_full grow limit R1 (mkPS (ps_cache s) (ps_until s) (ps_out s) (ps_count s) false)) as (s' & P1 & P2); cbn [ps_cache ps_count ps_until ps_out ps_keep]; auto; try lia.
      rewrite P1. cbn [ps_cache ps_count ps_until ps_out ps_keep] in *. rewrite P2, HO. f_equal. rewrite HT, RR, firstn_app. f_equal; [symmetry; apply firstn_all2; lia|]. rewrite firstn_app. 
      replace (Z.to_nat limit - length (E ++ [e]) - length R1) with 0 by lia. cbn [firstn]. rewrite app_nil_r. f_equal. lia.
Qed.

Lemma first_page : pages (S (length store)) grow limit (answer cap store) (mkPS pc_init until0 [] 0 false) = Some (firstn (Z.to_nat limit) T).
Proof.
  rewrite pages_S. cbn [ps_until ps_cache ps_out ps_count]. rewrite answer_T by lia.
  assert (F : filter (fun e => Z.leb (p_ts e) until0) T = T) by (apply filter_all; intros x Hx; unfold T in Hx; apply filter_In in Hx; tauto). rewrite F.
  set (R1 := firstn cap T). set (R2 := skipn cap T). assert (RR : T = R1 ++ R2) by (symmetry; apply firstn_skipn).
  pose proof T_ordered as OT. pose proof T_nodup as NT. assert (NR1 : NoDup (ids R1)) by (unfold ids in *; rewrite RR, map_app in NT; apply NoDup_app_inv in NT; tauto).
  destruct (Z.lt_ge_cases (Z.of_nat (length R1)) limit) as [LL|LL].
  - destruct (page_new grow limit R1 (mkPS pc_init until0 [] 0 false)) as (s' & P1 & P2 & P3 & P4 & P5 & P6); cbn [ps_cache ps_count ps_until ps_out ps_keep]; auto.
    rewrite P1. cbn [ps_cache ps_count ps_until ps_out ps_keep] in *. rewrite P6. cbn [orb app] in *.
    destruct (Nat.eqb_spec (length R1) 0) as [Q|Q]; cbn [negb].
    + assert (R1 = []) by (destruct R1; [reflexivity|discriminate]). assert (TN : T = []). { unfold R1 in H. pose proof (groups 0) as G. destruct cap; [lia|]. destruct T; [reflexivity|discriminate]. }
      rewrite P3, H, TN, firstn_nil. reflexivity.
    + assert (R1 <> []) by (intro H; rewrite H in Q; apply Q; reflexivity). destruct (exists_last H) as (R0 & e' & ER1).
      assert (LT : length T <= length store) by (unfold T; clear; induction store as [|x l IH]; [reflexivity|]; cbn; destruct (Z.leb _ _); cbn; lia).
      assert (LA : length T = length R1 + length R2) by (rewrite RR, app_length; reflexivity).
      destruct (length store) as [|m] eqn:LS; [lia|].
      apply (loop m R0 R2 e').
      * lia.
      * rewrite RR, ER1. reflexivity.
      * cbn [ps_out]. rewrite P3. exact ER1.
      * cbn [ps_until]. rewrite P2, ER1. apply min_ts_last; [rewrite RR, ER1 in OT; apply ordered_app in OT; tauto|].
        assert (IT : In e' T) by (rewrite RR, ER1; apply in_or_app; left; apply in_or_app; right; left; reflexivity). unfold T in IT. apply filter_In in IT as [_ IT]. lia.
      * cbn [ps_count]. rewrite P4, ER1. lia.
      * cbn [ps_count]. lia.
      * cbn [ps_cache pc_turn pc_rep]. rewrite P5. cbn [pc_init pc_next app]. intros x Hx _. rewrite ER1. apply in_map. exact Hx.
      * cbn [ps_cache pc_turn pc_rep]. rewrite P5. cbn [pc_init pc_next app]. intros i Hi. rewrite <- ER1. exact Hi.
      * reflexivity.
  - destruct (page_full grow limit R1 (mkPS pc_init until0 [] 0 false)) as (s' & P1 & P2); cbn [ps_cache ps_count ps_until ps_out ps_keep]; auto; try lia.
    rewrite P1. cbn [ps_cache ps_count ps_until ps_out ps_keep] in *. rewrite P2. cbn [app]. f_equal. rewrite RR, firstn_app. replace (Z.to_nat limit - length R1) with 0 by lia. cbn [firstn]. rewrite app_nil_r. f_equal. lia.
Qed.
End Loop.

(** Whatever the relays answer, the limit holds and only answered events are given. *)
Lemma one_page_out grow limit evs s s' b : one_page grow limit evs s = (s', b) ->
  (exists l, ps_out s' = ps_out s ++ l /\ (forall e, In e l -> In e evs) /\ (ps_count s' = ps_count s + Z.of_nat (length l))%Z) /\
  ((ps_count s < limit)%Z -> (ps_count s' <= limit)%Z /\ (b = false -> (ps_count s' < limit)%Z)) /\ ((limit <= ps_count s)%Z -> (ps_count s' <= ps_count s + 1)%Z /\ (b = false -> s' = s)).
Proof.
  revert s. induction evs as [|e r IH]; intros s H; cbn [one_page] in H.
  - injection H as <- <-. split; [exists []; rewrite app_nil_r; cbn; repeat split; [tauto|lia]|]. split; intros; split; auto; try lia.
  - destruct (existsb _ _).
    + destruct (IH s H) as ((l & L1 & L2 & L3) & I2 & I3). split; [exists l; repeat split; auto; intros x Hx; right; auto|]. split; auto.
    + destruct (Z.leb_spec limit (ps_count s + 1)) as [Q|Q].
      * injection H as <- <-. cbn [ps_out ps_count]. split; [exists [e]; repeat split; auto; intros x [<-|[]]; left; reflexivity|]. split; intros; split; intros; try discriminate; lia.
      * destruct (IH _ H) as ((l & L1 & L2 & L3) & I2 & I3). cbn [ps_out ps_count] in *. split; [exists (e :: l); rewrite L1, <- app_assoc; cbn [app length]; repeat split; auto; [intros x [<-|Hx]; [left; reflexivity|right; auto]|lia]|].
        split; intro; [apply I2; lia|lia].
Qed.
Lemma pages_out fuel grow limit page s out : pages fuel grow limit page s = Some out ->
  (exists l, out = ps_out s ++ l /\ forall e, In e l -> exists u, In e (page u)) /\ (ps_count s = Z.of_nat (length (ps_out s)) -> (ps_count s < limit)%Z -> (Z.of_nat (length out) <= limit)%Z) /\
  (ps_count s = Z.of_nat (length (ps_out s)) -> (limit <= ps_count s)%Z -> (Z.of_nat (length out) <= ps_count s + 1)%Z).
Proof.
  revert s. induction fuel as [|f IH]; intros s H; [discriminate|]. cbn [pages] in H. destruct (one_page _ _ _ _) as [s1 b] eqn:E.
  destruct (one_page_out _ _ _ _ _ _ E) as ((l & L1 & L2 & L3) & I2 & I3). cbn [ps_out ps_count] in *.
  assert (S1 : Some (ps_out s1) = Some out -> (exists l, out = ps_out s ++ l /\ forall e, In e l -> exists u, In e (page u)) /\ (ps_count s = Z.of_nat (length (ps_out s)) -> (ps_count s < limit)%Z -> (Z.of_nat (length out) <= limit)%Z) /\
    (ps_count s = Z.of_nat (length (ps_out s)) -> (limit <= ps_count s)%Z -> (Z.of_nat (length out) <= ps_count s + 1)%Z)).
  { intro Q. injection Q as <-. split; [exists l; split; [exact L1|intros e He; exists (ps_until s); auto]|]. rewrite L1, app_length. split; intros; [apply I2 in H1|apply I3 in H1]; lia. }
  destruct b; [auto|]. destruct (negb (ps_keep s1)) eqn:K; [auto|]. clear S1. destruct (IH _ H) as ((l' & M1 & M2) & J2 & J3). cbn [ps_out ps_count] in *. split; [|split].
  - exists (l ++ l'). rewrite M1, L1, <- app_assoc. split; [reflexivity|]. intros e He. apply in_app_or in He as [He|He]; [exists (ps_until s); auto|auto].
  - intros C L. apply J2; [rewrite L3, L1, app_length; lia|apply I2; auto].
  - intros C L. destruct (I3 L) as [_ Z]. specialize (Z eq_refl). rewrite Z in K. discriminate.
Qed.
