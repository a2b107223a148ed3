(** C110: the live feed. What it passes on, what it loses, what it writes down, and when its channel closes. *)
From Verif Require Import Base Machine FilterModel EventModel Nip19Model Nip19Proofs StoreModel StoreProofs ListsModel HllProofs FeedModel FeedProofs.
From Coq Require Import Permutation.
Import ListNotations.
Local Open Scope Z_scope.

(** ** Specification *)
Definition opt_list {A} (o : option A) : list A := match o with Some x => [x] | None => [] end.
(** what the consumer has taken from author i, in order *)
Definition taken_from (i : nat) (out : list (nat * fev)) : list fev := map snd (filter (fun p : nat * fev => Nat.eqb (fst p) i) out).
Definition all_of (a : author) : list fev := au_seen a ++ au_queue a ++ au_dropped a.
(** the newest time, and the times that were newer than all before *)
Definition newest (m : Z) (l : list fev) : Z := fold_left (fun x e => Z.max x (fe_at e)) l m.
Fixpoint records (m : Z) (l : list fev) : list Z := match l with [] => [] | e :: r => if m <? fe_at e then fe_at e :: records (fe_at e) r else records m r end.
(** what the store has under the author's key: every tenth record is written *)
Definition saved (before : option str) (recs : list Z) : option str := match (length recs / 10)%nat with O => before | S n => option_map encode_ts (nth_error recs (10 * S n - 1)) end.
Definition runs (pks : list str) (kv : list (str * str)) (l : list faction) (s : feed) : Prop := exec feed_step l (feed_init pks kv) = Some s.
Definition well_formed (pks : list str) (kv : list (str * str)) : Prop :=
  forall pk, In pk pks -> (16 <= length pk)%nat /\ forall key d, stream_key "L"%char pk = Ok key -> assoc key kv = Some d -> (4 <= length d)%nat.
Definition times_of (i : nat) (l : list faction) : list Z := flat_map (fun x => match x with FArrive j _ e => if Nat.eqb j i then [fe_at e] else [] | _ => [] end) l.
Fixpoint rising (l : list Z) : Prop := match l with [] => True | x :: r => (forall y, In y r -> x <= y) /\ rising r end.

(** ** Helpers *)
Lemma newest_snoc m l e : newest m (l ++ [e]) = Z.max (newest m l) (fe_at e).
Proof. unfold newest. rewrite fold_left_app. reflexivity. Qed.
Lemma newest_above m l : m <= newest m l.
Proof. revert m. induction l as [|e l IH]; intro m; unfold newest in *; cbn [fold_left]; [lia|]. specialize (IH (Z.max m (fe_at e))). lia. Qed.
Lemma newest_lt m l t : t < newest m l -> t < m \/ exists e, In e l /\ t < fe_at e.
Proof.
  revert m. induction l as [|e l IH]; intros m H; unfold newest in *; cbn [fold_left] in H; [auto|]. apply IH in H as [H|(e' & I & H)].
  - destruct (Z.max_spec m (fe_at e)) as [[_ Q]|[_ Q]]; rewrite Q in H; [right; exists e; split; [left; reflexivity|exact H]|auto].
  - right. exists e'. split; [right; exact I|exact H].
Qed.
Lemma records_snoc m l e : records m (l ++ [e]) = records m l ++ (if newest m l <? fe_at e then [fe_at e] else []).
Proof.
  revert m. induction l as [|x l IH]; intro m; cbn [app records].
  - unfold newest. cbn [fold_left]. destruct (m <? fe_at e); reflexivity.
  - unfold newest. cbn [fold_left]. fold (newest (Z.max m (fe_at x)) l). destruct (Z.ltb_spec m (fe_at x)).
    + rewrite Z.max_r by lia. rewrite IH. reflexivity.
    + rewrite Z.max_l by lia. apply IH.
Qed.
Lemma taken_snoc i out j e : taken_from i (out ++ [(j, e)]) = taken_from i out ++ (if Nat.eqb j i then [e] else []).
Proof. unfold taken_from. rewrite filter_app, map_app. cbn [filter fst]. destruct (Nat.eqb j i); reflexivity. Qed.
Lemma finish_authors s t l : fd_authors (finish s t l) = l. Proof. unfold finish. destruct (_ =? 0); reflexivity. Qed.
Lemma finish_todo s t l : fd_todo (finish s t l) = t. Proof. unfold finish. destruct (_ =? 0); reflexivity. Qed.
Lemma finish_kv s t l : fd_kv (finish s t l) = fd_kv s. Proof. unfold finish. destruct (_ =? 0); reflexivity. Qed.
Lemma finish_out s t l : fd_out (finish s t l) = fd_out s. Proof. unfold finish. destruct (_ =? 0); reflexivity. Qed.
Lemma finish_stored s t l : fd_stored (finish s t l) = fd_stored s. Proof. unfold finish. destruct (_ =? 0); reflexivity. Qed.
Lemma finish_active s t l : fd_active (finish s t l) = fd_active s - 1. Proof. unfold finish. destruct (_ =? 0); reflexivity. Qed.

(** Runs, from the end *)
Lemma runs_ind (I : list faction -> feed -> Prop) pks kv : I [] (feed_init pks kv) -> (forall l s x s', runs pks kv l s -> I l s -> fd_panic s = false -> fstep x s s' -> I (l ++ [x]) s') -> forall l s, runs pks kv l s -> I l s.
Proof.
  intros H0 HS l. induction l as [|x l IH] using rev_ind; unfold runs in *; intros s H.
  - cbn [exec] in H. injection H as <-. exact H0.
  - rewrite exec_app in H. destruct (exec feed_step l (feed_init pks kv)) as [s1|] eqn:E; [|discriminate]. cbn [exec] in H. destruct (feed_step x s1) as [s2|] eqn:ST; [|discriminate]. injection H as <-.
    apply feed_fstep in ST as [P ST]. eapply HS; eauto.
Qed.

(** What holds of each author *)
Definition au_good (i : nat) (l : list faction) (out : list (nat * fev)) (a : author) : Prop :=
  taken_from i out ++ opt_list (au_pending a) = au_seen a /\ au_latest a = newest (au_first a) (au_seen a) /\ au_serial a = length (records (au_first a) (au_seen a)) /\
  Permutation (au_ids a) (map fe_id (all_of a)) /\ NoDup (au_ids a) /\ (forall r e, In (FArrive i r e) l -> In (fe_id e) (au_ids a)) /\ (forall e, In e (all_of a) -> exists r, In (FArrive i r e) l) /\
  (forall e, In e (au_dropped a) -> au_had a = true /\ fe_at e < au_latest a) /\ (au_had a = false -> au_first a = 0).
Definition feed_good (l : list faction) (s : feed) : Prop :=
  (forall i a, nth_error (fd_authors s) i = Some a -> au_good i l (fd_out s) a) /\ (forall p, In p (fd_out s) -> (fst p < length (fd_authors s))%nat) /\
  (forall i r e, In (FArrive i r e) l -> (i < length (fd_authors s))%nat) /\
  Permutation (fd_stored s) (concat (map au_seen (fd_authors s))).
Lemma au_good_more i l x out a : (forall r e, x <> FArrive i r e) -> au_good i l out a -> au_good i (l ++ [x]) out a.
Proof.
  intros NX (H1 & H2 & H3 & H4 & H5 & H6 & H7 & H8 & H9). repeat split; auto.
  - intros r e I. apply in_app_or in I as [I|[I|[]]]; [eauto|destruct (NX r e I)].
  - intros e I. destruct (H7 e I) as (r & Q). exists r. apply in_or_app. auto.
  - apply (H8 e); assumption.
  - apply (H8 e); assumption.
Qed.
Lemma concat_upd {A} (f : author -> list A) l i a a' x : nth_error l i = Some a -> f a' = f a ++ x -> Permutation (concat (map f l) ++ x) (concat (map f (upd l i a'))).
Proof.
  revert i. induction l as [|y l IH]; intros [|i] N E; try discriminate; cbn [nth_error upd map concat] in *.
  - injection N as ->. rewrite E, <- !app_assoc. apply Permutation_app_head. apply Permutation_app_comm.
  - rewrite <- app_assoc. apply Permutation_app_head. eapply IH; eauto.
Qed.
Lemma upd_same_seen l i a a' : nth_error l i = Some a -> au_seen a' = au_seen a -> map au_seen (upd l i a') = map au_seen l.
Proof. revert i. induction l as [|y l IH]; intros [|i] N E; try discriminate; cbn [nth_error upd map] in *; [injection N as ->; congruence|f_equal; eauto]. Qed.

Lemma feed_good_runs pks kv l s : runs pks kv l s -> feed_good l s.
Proof.
  revert l s. apply runs_ind.
  { split; [|split; [|split]]; cbn [feed_init fd_authors fd_out fd_stored].
    - intros [|i] a H; discriminate.
    - intros p [].
    - intros i r e [].
    - constructor. }
  intros l s x s' _ (GA & GO & GL & GS) P ST.
  assert (NOARR : (forall i r e, x <> FArrive i r e) -> forall i r e, In (FArrive i r e) (l ++ [x]) -> (i < length (fd_authors s))%nat).
  { intros NX i r e I. apply in_app_or in I as [I|[I|[]]]; [eapply GL; eauto|destruct (NX i r e I)]. }
  assert (MORE : (forall i r e, x <> FArrive i r e) -> forall i a, nth_error (fd_authors s) i = Some a -> au_good i (l ++ [x]) (fd_out s) a) by (intros NX i a N; apply au_good_more; [apply NX|apply GA; exact N]).
  inversion ST; subst.
  - (* no relays *) assert (NX : forall i r e, FNext false <> FArrive i r e) by discriminate. split; [|split; [|split]]; rewrite ?finish_authors, ?finish_out, ?finish_stored; auto. apply NOARR. exact NX.
  - (* start *) assert (NX : forall i r e, FNext true <> FArrive i r e) by discriminate. split; [|split; [|split]]; cbn [fd_authors fd_out fd_stored].
    + intros i a N. apply nth_snoc in N as [N|[-> ->]]; [apply MORE; assumption|]. unfold au_good, fresh, all_of. cbn [au_pending au_seen au_latest au_first au_serial au_ids au_queue au_dropped au_had].
      repeat split; try (intros; contradiction); try constructor.
      * unfold taken_from. assert (F : filter (fun p : nat * fev => Nat.eqb (fst p) (length (fd_authors s))) (fd_out s) = []).
        { destruct (filter _ (fd_out s)) as [|p q] eqn:F; [reflexivity|]. assert (I : In p (filter (fun p : nat * fev => Nat.eqb (fst p) (length (fd_authors s))) (fd_out s))) by (rewrite F; left; reflexivity).
          apply filter_In in I as [I E]. apply Nat.eqb_eq in E. specialize (GO p I). lia. }
        rewrite F. reflexivity.
      * intros r e I. apply NOARR in I; [lia|exact NX].
      * intro Q. destruct (assoc key (fd_kv s)); destruct H1; congruence.
    + intros p I. rewrite app_length. cbn [length]. specialize (GO p I). lia.
    + intros i r e I. rewrite app_length. cbn [length]. apply NOARR in I; [lia|exact NX].
    + rewrite map_app, concat_app. cbn [map concat fresh au_seen]. rewrite !app_nil_r. exact GS.
  - (* crash *) assert (NX : forall i r e, FNext true <> FArrive i r e) by discriminate. split; [|split; [|split]]; cbn [crash fd_authors fd_out fd_stored]; auto. apply NOARR. exact NX.
  - (* request *) assert (NX : forall j r' e, FReq i r <> FArrive j r' e) by discriminate. split; [|split; [|split]]; cbn [with_authors fd_authors fd_out fd_stored]; rewrite ?upd_length; auto.
    + intros j b N. apply nth_upd in N as [[<- ->]|[NE N]]; [|apply MORE; assumption]. exact (MORE NX i a H).
    + apply NOARR. exact NX.
    + rewrite (upd_same_seen _ _ a); auto.
  - (* eose *) assert (NX : forall j r' e, FEose i r <> FArrive j r' e) by discriminate. split; [|split; [|split]]; cbn [with_authors fd_authors fd_out fd_stored]; rewrite ?upd_length; auto.
    + intros j b N. apply nth_upd in N as [[<- ->]|[NE N]]; [|apply MORE; assumption]. exact (MORE NX i a H).
    + apply NOARR. exact NX.
    + rewrite (upd_same_seen _ _ a); auto.
  - (* a duplicate *) split; [|split; [|split]]; auto.
    + intros j b N. destruct (Nat.eq_dec j i) as [->|NE]; [|apply au_good_more; [congruence|apply GA; exact N]]. assert (b = a) by congruence. subst b.
      destruct (GA i a H) as (H4 & H5 & H6 & H7 & H8 & H9 & H10 & H11 & H12). repeat split; auto; try (eapply H11; eassumption).
      * intros r' e' I. apply in_app_or in I as [I|[I|[]]]; [eauto|]. injection I as <- <-. assumption.
      * intros e' I. destruct (H10 e' I) as (r' & Q). exists r'. apply in_or_app. auto.
    + intros j r' e' I. apply in_app_or in I as [I|[I|[]]]; [eauto|]. injection I as <- <- <-. apply nth_lt in H. exact H.
  - (* kept *) split; [|split; [|split]]; cbn [with_authors fd_authors fd_out fd_stored]; rewrite ?upd_length; auto.
    + intros j b N. apply nth_upd in N as [[<- ->]|[NE N]]; [|apply au_good_more; [congruence|apply GA; exact N]].
      destruct (GA i a H) as (H4 & H5 & H6 & H7 & H8 & H9 & H10 & H11 & H12). unfold au_good, keep, all_of in *. cbn [au_pending au_seen au_latest au_first au_serial au_ids au_queue au_dropped au_had].
      assert (PM : Permutation (e :: au_seen a ++ au_queue a ++ au_dropped a) (au_seen a ++ (au_queue a ++ [e]) ++ au_dropped a)).
      { rewrite <- app_assoc. cbn [app]. rewrite !app_assoc. apply Permutation_middle. }
      repeat split; auto; try (eapply H11; eassumption).
      * rewrite <- PM. cbn [map]. constructor. exact H7.
      * constructor; assumption.
      * intros r' e' I. apply in_app_or in I as [I|[I|[]]]; [right; eauto|]. injection I as <- <-. left. reflexivity.
      * intros e' I. apply (Permutation_in _ (Permutation_sym PM)) in I as [<-|I]; [exists r; apply in_or_app; right; left; reflexivity|]. destruct (H10 e' I) as (r' & Q). exists r'. apply in_or_app. auto.
    + intros j r' e' I. apply in_app_or in I as [I|[I|[]]]; [eauto|]. injection I as <- <- <-. apply nth_lt in H. exact H.
    + rewrite (upd_same_seen _ _ a); auto.
  - (* dropped *) split; [|split; [|split]]; cbn [with_authors fd_authors fd_out fd_stored]; rewrite ?upd_length; auto.
    + intros j b N. apply nth_upd in N as [[<- ->]|[NE N]]; [|apply au_good_more; [congruence|apply GA; exact N]].
      destruct (GA i a H) as (Q4 & Q5 & Q6 & Q7 & Q8 & Q9 & Q10 & Q11 & Q12). unfold au_good, discard, all_of in *. cbn [au_pending au_seen au_latest au_first au_serial au_ids au_queue au_dropped au_had].
      assert (PM : Permutation (e :: au_seen a ++ au_queue a ++ au_dropped a) (au_seen a ++ au_queue a ++ au_dropped a ++ [e])).
      { rewrite !app_assoc. apply Permutation_cons_append. }
      split; [exact Q4|]. split; [exact Q5|]. split; [exact Q6|]. split; [rewrite <- PM; cbn [map]; constructor; exact Q7|]. split; [constructor; assumption|]. split; [|split; [|split; [|exact Q12]]].
      * intros r' e' I. apply in_app_or in I as [I|[I|[]]]; [right; eauto|]. injection I as <- <-. left. reflexivity.
      * intros e' I. apply (Permutation_in _ (Permutation_sym PM)) in I as [<-|I]; [exists r; apply in_or_app; right; left; reflexivity|]. destruct (Q10 e' I) as (r' & Q). exists r'. apply in_or_app. auto.
      * intros e' I. apply in_app_or in I as [I|[<-|[]]]; [exact (Q11 e' I)|auto].
    + intros j r' e' I. apply in_app_or in I as [I|[I|[]]]; [eauto|]. injection I as <- <- <-. apply nth_lt in H. exact H.
    + rewrite (upd_same_seen _ _ a); auto.
  - (* handled *) assert (NX : forall j r e', FHandle i k <> FArrive j r e') by discriminate.
    apply handle_spec in H5 as (E1 & E2 & E3 & E4 & E5 & E6 & E7 & E8 & E9 & E10 & E11 & E12 & E13). cbn [set_queue au_pk au_had au_first au_req au_eosed au_ids au_queue au_seen au_dropped au_pending au_done au_latest au_serial au_oldest] in *.
    split; [|split; [|split]]; cbn [with_authors fd_authors fd_out fd_stored]; rewrite ?upd_length; auto.
    + intros j b N. apply nth_upd in N as [[<- ->]|[NE N]]; [|apply MORE; assumption].
      destruct (MORE NX i a H) as (Q4 & Q5 & Q6 & Q7 & Q8 & Q9 & Q10 & Q11 & Q12). unfold au_good, all_of in *. rewrite E2, E3, E6, E7, E8, E9, E10, E12.
      assert (PM : Permutation (au_seen a ++ au_queue a ++ au_dropped a) ((au_seen a ++ [e]) ++ remove_nth k (au_queue a) ++ au_dropped a)).
      { rewrite <- app_assoc. apply Permutation_app_head. cbn [app]. apply (remove_nth_perm _ k e) in H2. rewrite H2 at 1. reflexivity. }
      split; [|split; [|split; [|split; [|split; [|split; [|split; [|split]]]]]]].
      * rewrite H1 in Q4. cbn [opt_list] in *. rewrite app_nil_r in Q4. rewrite Q4. reflexivity.
      * rewrite newest_snoc. congruence.
      * rewrite records_snoc, app_length, <- Q5, <- Q6. destruct E13 as [(L & -> & _)|[(L & _ & -> & _)|(L & _ & -> & _)]].
        { apply Z.ltb_lt in L. rewrite L. cbn [length]. lia. }
        { apply Z.ltb_ge in L. rewrite L. cbn [length]. lia. }
        { apply Z.ltb_ge in L. rewrite L. cbn [length]. lia. }
      * rewrite <- PM. exact Q7.
      * exact Q8.
      * exact Q9.
      * intros e' I. apply Q10. apply (Permutation_in _ (Permutation_sym PM)). exact I.
      * intros e' I. destruct (Q11 e' I) as [Q Q']. split; [exact Q|lia].
      * exact Q12.
    + apply NOARR. exact NX.
    + rewrite <- (concat_upd au_seen _ i a a' [e]); [|exact H|rewrite E8; reflexivity]. apply Permutation_app_tail. exact GS.
  - (* panic in a send *) assert (NX : forall j r e', FTake i <> FArrive j r e') by discriminate. split; [|split; [|split]]; cbn [crash fd_authors fd_out fd_stored]; auto. apply NOARR. exact NX.
  - (* taken *) assert (NX : forall j r e', FTake i <> FArrive j r e') by discriminate. split; [|split; [|split]]; cbn [fd_authors fd_out fd_stored]; rewrite ?upd_length; auto.
    + intros j b N. apply nth_upd in N as [[<- ->]|[NE N]].
      * destruct (MORE NX i a H) as (Q4 & Q). split; [|exact Q]. cbn [taken au_pending au_seen opt_list]. rewrite taken_snoc, Nat.eqb_refl, app_nil_r. rewrite H1 in Q4. exact Q4.
      * destruct (MORE NX j b N) as (Q4 & Q). split; [|exact Q]. rewrite taken_snoc. apply Nat.eqb_neq in NE. rewrite NE, app_nil_r. exact Q4.
    + intros p I. apply in_app_or in I as [I|[<-|[]]]; [auto|]. apply nth_lt in H. exact H.
    + apply NOARR. exact NX.
    + rewrite (upd_same_seen _ _ a); auto.
  - (* done *) assert (NX : forall j r e', FDone i <> FArrive j r e') by discriminate. split; [|split; [|split]]; rewrite ?finish_authors, ?finish_out, ?finish_stored, ?upd_length; auto.
    + intros j b N. apply nth_upd in N as [[<- ->]|[NE N]]; [|apply MORE; assumption]. destruct (MORE NX i a H) as (Q4 & Q). split; [|exact Q]. rewrite H1 in Q4. exact Q4.
    + apply NOARR. exact NX.
    + rewrite (upd_same_seen _ _ a); auto.
Qed.

(** ** Every event that arrives is accounted for, and each id once *)
Theorem C110_accounted pks kv l s i a : runs pks kv l s -> nth_error (fd_authors s) i = Some a ->
  NoDup (map fe_id (all_of a)) /\ (forall r e, In (FArrive i r e) l -> In (fe_id e) (map fe_id (all_of a))) /\ (forall e, In e (all_of a) -> exists r, In (FArrive i r e) l).
Proof.
  intros R N. destruct (feed_good_runs _ _ _ _ R) as (GA & _). destruct (GA i a N) as (_ & _ & _ & P & ND & A1 & A2 & _). split; [exact (Permutation_NoDup P ND)|]. split; [|exact A2].
  intros r e I. apply (Permutation_in _ P). eapply A1; eauto.
Qed.
(** What the goroutine saw is what the consumer took, in the same order, and at most one event on the way. The local store gets just these events. *)
Theorem C110_forwarded pks kv l s i a : runs pks kv l s -> nth_error (fd_authors s) i = Some a -> taken_from i (fd_out s) ++ opt_list (au_pending a) = au_seen a.
Proof. intros R N. destruct (feed_good_runs _ _ _ _ R) as (GA & _). exact (proj1 (GA i a N)). Qed.
Theorem C110_stored pks kv l s : runs pks kv l s -> Permutation (fd_stored s) (concat (map au_seen (fd_authors s))).
Proof. intro R. destruct (feed_good_runs _ _ _ _ R) as (_ & _ & _ & GS). exact GS. Qed.
(** An event is dropped only for an author with a record, and if it is older than the record or than an event already seen. *)
Theorem C110_dropped pks kv l s i a e : runs pks kv l s -> nth_error (fd_authors s) i = Some a -> In e (au_dropped a) ->
  au_had a = true /\ (fe_at e < au_first a \/ exists e', In e' (au_seen a) /\ fe_at e < fe_at e').
Proof.
  intros R N I. destruct (feed_good_runs _ _ _ _ R) as (GA & _). destruct (GA i a N) as (_ & LA & _ & _ & _ & _ & _ & D & _). destruct (D e I) as [H T]. split; [exact H|]. rewrite LA in T. apply newest_lt. exact T.
Qed.
(** So without a record nothing is lost: *)
Theorem C110_first_run pks kv l s i a : runs pks kv l s -> nth_error (fd_authors s) i = Some a -> au_had a = false -> au_dropped a = [].
Proof. intros R N F. destruct (au_dropped a) as [|e d] eqn:D; [reflexivity|]. destruct (C110_dropped _ _ _ _ _ _ e R N) as [H _]; [rewrite D; left; reflexivity|congruence]. Qed.
(** and nothing that the record asks for is lost if events come oldest first, *)
Lemma rising_snoc l x : rising (l ++ [x]) -> rising l /\ forall y, In y l -> y <= x.
Proof.
  induction l as [|z l IH]; cbn [app rising]; [intros _; split; [exact I|intros y []]|intros [H1 H2]]. apply IH in H2 as [H2 H3]. split; [split; [intros y Y; apply H1; apply in_or_app; auto|exact H2]|].
  intros y [<-|I]; [apply H1; apply in_or_app; right; left; reflexivity|auto].
Qed.
Lemma times_in i r e l : In (FArrive i r e) l -> In (fe_at e) (times_of i l).
Proof. intro I. unfold times_of. apply in_flat_map. exists (FArrive i r e). split; [exact I|]. rewrite Nat.eqb_refl. left. reflexivity. Qed.
Lemma times_snoc i l x : times_of i (l ++ [x]) = times_of i l ++ match x with FArrive j _ e => if Nat.eqb j i then [fe_at e] else [] | _ => [] end.
Proof. unfold times_of. rewrite flat_map_app. cbn [flat_map]. rewrite app_nil_r. reflexivity. Qed.
Theorem C110_oldest_first pks kv l s i a e : runs pks kv l s -> rising (times_of i l) -> nth_error (fd_authors s) i = Some a -> In e (au_dropped a) -> fe_at e < au_first a.
Proof.
  intro R. revert a e. revert l s R. apply (runs_ind (fun l s => forall a e, rising (times_of i l) -> nth_error (fd_authors s) i = Some a -> In e (au_dropped a) -> fe_at e < au_first a)).
  - intros a e _ N. cbn in N. destruct i; discriminate.
  - intros l s x s' R IH' P ST a e RI N I. rewrite times_snoc in RI.
    assert (RI' : rising (times_of i l)). { destruct x; rewrite ?app_nil_r in RI; try exact RI. destruct (Nat.eqb i0 i); rewrite ?app_nil_r in RI; [apply rising_snoc in RI; apply RI|exact RI]. }
    assert (IH : forall a e, nth_error (fd_authors s) i = Some a -> In e (au_dropped a) -> fe_at e < au_first a) by (intros b e'; apply IH'; exact RI').
    inversion ST; subst; rewrite ?finish_authors in N; cbn [crash with_authors fd_authors] in N; eauto.
    + apply nth_snoc in N as [N|[_ ->]]; [eauto|destruct I].
    + apply nth_upd in N as [[-> ->]|[_ N]]; [exact (IH _ _ H I)|eauto].
    + apply nth_upd in N as [[-> ->]|[_ N]]; [exact (IH _ _ H I)|eauto].
    + apply nth_upd in N as [[-> ->]|[_ N]]; [exact (IH _ _ H I)|eauto].
    + apply nth_upd in N as [[-> ->]|[_ N]]; [|eauto]. cbn [discard au_dropped au_first] in *. apply in_app_or in I as [I|[<-|[]]]; [exact (IH _ _ H I)|].
      rewrite Nat.eqb_refl in RI. apply rising_snoc in RI as [_ RI]. destruct (feed_good_runs _ _ _ _ R) as (GA & _). destruct (GA i a0 H) as (_ & LA & _ & _ & _ & _ & A & _).
      rewrite LA in H5. apply newest_lt in H5 as [Q|(e' & I' & Q)]; [exact Q|]. exfalso. destruct (A e') as (r' & AR); [unfold all_of; apply in_or_app; auto|]. apply times_in in AR. specialize (RI _ AR). lia.
    + apply nth_upd in N as [[-> ->]|[_ N]]; [|eauto]. apply handle_spec in H5 as (E1 & E2 & E3 & E4 & E5 & E6 & E7 & E8 & E9 & _). rewrite E9 in I. rewrite E3. cbn [set_queue au_dropped au_first] in *. exact (IH _ _ H I).
    + apply nth_upd in N as [[-> ->]|[_ N]]; [exact (IH _ _ H I)|eauto].
    + apply nth_upd in N as [[-> ->]|[_ N]]; [exact (IH _ _ H I)|eauto].
Qed.

(** ** When the channel closes *)
Definition active (s : feed) : nat := length (fd_todo s) + cnt (fun a => negb (au_done a)) (fd_authors s).
Definition shut (pks : list str) (s : feed) : Prop :=
  fd_active s = Z.of_nat (active s) /\ (fd_closed s <= 1)%nat /\ (fd_closed s = 1%nat -> active s = 0%nat) /\ (pks <> [] -> active s = 0%nat -> fd_closed s = 1%nat) /\ (pks = [] -> fd_closed s = 0%nat).
Lemma finish_shut pks s t l : shut pks s -> active s = S (length t + cnt (fun a => negb (au_done a)) l) -> pks <> [] -> shut pks (finish s t l) /\ fd_panic (finish s t l) = fd_panic s.
Proof.
  intros (A & B1 & B2 & B3 & B4) E NE. assert (C0 : fd_closed s = 0%nat) by lia. unfold finish, shut, active in *. rewrite C0. destruct (Z.eqb_spec (fd_active s - 1) 0); cbn [fd_active fd_closed fd_todo fd_authors fd_panic Nat.ltb Nat.leb].
  - rewrite Bool.orb_false_r. repeat split; try lia; congruence.
  - repeat split; try lia; congruence.
Qed.
Lemma active_upd s i a a' : nth_error (fd_authors s) i = Some a -> au_done a' = au_done a -> cnt (fun a => negb (au_done a)) (upd (fd_authors s) i a') = cnt (fun a => negb (au_done a)) (fd_authors s).
Proof. intros N E. pose proof (cnt_upd (fun a => negb (au_done a)) (fd_authors s) i a' a N) as Q. cbn beta in Q. rewrite E in Q. lia. Qed.
Lemma live_active s i a : nth_error (fd_authors s) i = Some a -> au_done a = false -> active s <> 0%nat.
Proof. intros N D. unfold active. pose proof (cnt_upd (fun a => negb (au_done a)) (fd_authors s) i (ended a) a N) as Q. cbn [ended au_done negb] in Q. rewrite D in Q. cbn [negb] in Q. lia. Qed.
Lemma shut_runs pks kv l s : runs pks kv l s -> shut pks s /\ (pks = [] -> fd_todo s = [] /\ fd_authors s = []) /\ (forall pk, In pk (fd_todo s) -> In pk pks).
Proof.
  revert l s. apply runs_ind.
  - split; [|split; [intros ->; auto|auto]]. unfold shut, active. cbn [feed_init fd_todo fd_authors fd_active fd_closed cnt]. repeat split; try lia; try congruence. destruct pks; [congruence|cbn [length]; lia].
  - intros l s x s' _ (SH & E0 & SUB) P ST.
    assert (NE : active s <> 0%nat -> pks <> []). { intros Q ->. destruct (E0 eq_refl) as [E1 E2]. unfold active in Q. rewrite E1, E2 in Q. apply Q. reflexivity. }
    assert (ALT : forall k, fd_todo k = fd_todo s -> fd_active k = fd_active s -> fd_closed k = fd_closed s -> length (fd_authors k) = length (fd_authors s) -> cnt (fun a => negb (au_done a)) (fd_authors k) = cnt (fun a => negb (au_done a)) (fd_authors s) -> shut pks k /\ (pks = [] -> fd_todo k = [] /\ fd_authors k = []) /\ (forall pk, In pk (fd_todo k) -> In pk pks)).
    { intros k K1 K2 K3 K4 K5. unfold shut, active in *. rewrite K1, K2, K3, K5. split; [exact SH|]. split; [|exact SUB]. intro Q. destruct (E0 Q) as [Q1 Q2]. split; [exact Q1|]. rewrite Q2 in K4. destruct (fd_authors k); [reflexivity|discriminate]. }
    inversion ST; subst.
    + assert (ND : pks <> []). { apply NE. unfold active. rewrite H. cbn [length]. lia. } split; [|split].
      * apply finish_shut; auto. unfold active. rewrite H. reflexivity.
      * intro Q. contradiction.
      * rewrite finish_todo. intros pk' I. apply SUB. rewrite H. right. exact I.
    + assert (ND : pks <> []). { apply NE. unfold active. rewrite H. cbn [length]. lia. } split; [|split].
      * unfold shut, active in *. cbn [fd_todo fd_authors fd_active fd_closed]. rewrite H in SH. rewrite cnt_app. cbn [cnt fresh au_done negb length] in *. destruct SH as (S1 & S2 & S3 & S4 & S5). repeat split; try lia; auto.
      * intro Q. contradiction.
      * cbn [fd_todo]. intros pk' I. apply SUB. rewrite H. right. exact I.
    + apply ALT; reflexivity.
    + apply ALT; cbn [with_authors fd_todo fd_active fd_closed fd_authors]; auto; [apply upd_length|apply (active_upd _ _ a); auto].
    + apply ALT; cbn [with_authors fd_todo fd_active fd_closed fd_authors]; auto; [apply upd_length|apply (active_upd _ _ a); auto].
    + auto.
    + apply ALT; cbn [with_authors fd_todo fd_active fd_closed fd_authors]; auto; [apply upd_length|apply (active_upd _ _ a); auto].
    + apply ALT; cbn [with_authors fd_todo fd_active fd_closed fd_authors]; auto; [apply upd_length|apply (active_upd _ _ a); auto].
    + apply handle_spec in H5 as (E1 & E2 & E3 & E4 & E5 & E6 & E7 & E8 & E9 & E10 & E11 & _). apply ALT; cbn [with_authors fd_todo fd_active fd_closed fd_authors]; auto; [apply upd_length|apply (active_upd _ _ a); auto].
    + apply ALT; reflexivity.
    + apply ALT; cbn [with_authors fd_todo fd_active fd_closed fd_authors]; auto; [apply upd_length|apply (active_upd _ _ a); auto].
    + pose proof (NE (live_active _ _ _ H H0)) as ND. split; [|split].
      * apply finish_shut; auto. unfold active. pose proof (cnt_upd (fun a => negb (au_done a)) (fd_authors s) i (ended a) a H) as Q. cbn [ended au_done negb] in Q. rewrite H0 in Q. cbn [negb] in Q. lia.
      * intro Q. contradiction.
      * rewrite finish_todo. exact SUB.
Qed.
(** The panics are those of a short key and of a short record; no other: neither a second close nor a send on the closed channel happens. *)
Lemma stream_key_ok p pk : (16 <= length pk)%nat -> exists key, stream_key p pk = Ok key.
Proof. intro L. unfold stream_key. destruct (Nat.ltb_spec (length pk) 16); [lia|eauto]. Qed.
Lemma stream_key_head p pk key : stream_key p pk = Ok key -> (16 <= length pk)%nat /\ exists r, key = p :: r.
Proof. unfold stream_key. destruct (Nat.ltb_spec (length pk) 16); [discriminate|]. intro Q. injection Q as <-. split; [exact H|eauto]. Qed.
Lemma decode_long d : (4 <= length d)%nat -> decode_ts d <> Panic.
Proof. destruct d as [|x [|y [|z [|w d]]]]; cbn [length]; try lia. cbn [decode_ts be32]. discriminate. Qed.
Lemma decode_short d : (length d < 4)%nat -> decode_ts d = Panic.
Proof. destruct d as [|x [|y [|z [|w d]]]]; cbn [length]; try lia; reflexivity. Qed.
Theorem C110_no_panic pks kv l s : well_formed pks kv -> runs pks kv l s -> fd_panic s = false.
Proof.
  intro WF. assert (G : forall l s, runs pks kv l s -> fd_panic s = false /\ well_formed pks (fd_kv s)); [|intro R; apply (G _ _ R)]. clear l s.
  apply runs_ind; [split; [reflexivity|exact WF]|]. intros l s x s' R (PA & W) P ST. destruct (shut_runs _ _ _ _ R) as (SH & E0 & SUB).
  inversion ST; subst.
  - rewrite finish_kv. split; [|exact W]. destruct (finish_shut pks s todo (fd_authors s) SH) as [_ Q]; [unfold active; rewrite H; reflexivity|intros ->; destruct (E0 eq_refl); congruence|congruence].
  - split; [exact PA|exact W].
  - exfalso. assert (I : In pk pks) by (apply SUB; rewrite H; left; reflexivity). destruct (W pk I) as [L D]. destruct H0 as [K|(key & data & K & A & DP)].
    + destruct (stream_key_ok "L"%char pk L) as [key K']. congruence.
    + specialize (D key data K A). exact (decode_long _ D DP).
  - split; [exact PA|exact W].
  - split; [exact PA|exact W].
  - split; [exact PA|exact W].
  - split; [exact PA|exact W].
  - split; [exact PA|exact W].
  - split; [exact PA|]. cbn [fd_kv]. apply handle_spec in H5 as (_ & _ & _ & _ & _ & _ & _ & _ & _ & _ & _ & _ & E).
    assert (SET : forall k t, well_formed pks (mset k (encode_ts t) (fd_kv s))).
    { intros k0 t pk I. destruct (W pk I) as [L D]. split; [exact L|]. intros key d K A. rewrite assoc_mset in A. destruct (seqb key k0); [|eauto]. injection A as <-. unfold encode_ts. rewrite put_be32_length. lia. }
    destruct E as [(_ & _ & _ & ->)|[(_ & _ & _ & _ & ->)|(_ & _ & _ & _ & ->)]]; auto. destruct (Nat.eqb _ 0); auto.
  - exfalso. destruct SH as (S1 & S2 & S3 & S4 & S5). apply (live_active _ _ _ H H0). apply S3. lia.
  - split; [exact PA|exact W].
  - rewrite finish_kv. split; [|exact W]. destruct (finish_shut pks s (fd_todo s) (upd (fd_authors s) i (ended a)) SH) as [_ Q]; [| |congruence].
    + unfold active. pose proof (cnt_upd (fun a => negb (au_done a)) (fd_authors s) i (ended a) a H) as Q. cbn [ended au_done negb] in Q. rewrite H0 in Q. cbn [negb] in Q. lia.
    + intros ->. destruct (E0 eq_refl) as [_ Q]. rewrite Q in H. destruct i; discriminate.
Qed.
Theorem C110_panics s s' pk todo : fd_todo s = pk :: todo -> fd_panic s = false -> feed_step (FNext true) s = Some s' ->
  (fd_panic s' = true <-> (length pk < 16)%nat \/ exists key d, stream_key "L"%char pk = Ok key /\ assoc key (fd_kv s) = Some d /\ (length d < 4)%nat).
Proof.
  intros T P ST. apply feed_fstep in ST as [_ ST]. inversion ST; subst; rewrite H in T; injection T as -> ->.
  - cbn [fd_panic]. rewrite P. split; [discriminate|]. destruct (stream_key_head _ _ _ H0) as [L _]. intros [Q|(key' & d & K & A & Q)]; [lia|]. assert (key' = key) by congruence. subst key'. rewrite A in H1. destruct H1 as [_ H1]. apply decode_short in Q. congruence.
  - cbn [crash fd_panic]. split; [|auto]. intros _. destruct H0 as [K|(key & data & K & A & D)].
    + left. destruct (Nat.lt_ge_cases (length pk) 16) as [Q|Q]; [exact Q|]. destruct (stream_key_ok "L"%char pk Q). congruence.
    + right. exists key, data. split; [exact K|]. split; [exact A|]. destruct (Nat.lt_ge_cases (length data) 4) as [Q|Q]; [exact Q|]. destruct (decode_long _ Q D).
Qed.
(** The channel is closed once, exactly when no key is left to start and each goroutine has ended. *)
Theorem C110_closes pks kv l s : runs pks kv l s -> pks <> [] -> (fd_closed s <= 1)%nat /\ (fd_closed s = 1%nat <-> fd_todo s = [] /\ forall a, In a (fd_authors s) -> au_done a = true).
Proof.
  intros R NE. destruct (shut_runs _ _ _ _ R) as ((S1 & S2 & S3 & S4 & S5) & _ & _). split; [exact S2|].
  assert (Q : active s = 0%nat <-> fd_todo s = [] /\ forall a, In a (fd_authors s) -> au_done a = true).
  { unfold active. split.
    - intro Q. split; [destruct (fd_todo s); [reflexivity|cbn [length] in Q; lia]|]. assert (C : cnt (fun a => negb (au_done a)) (fd_authors s) = 0%nat) by lia. clear Q. induction (fd_authors s) as [|y m IH]; [intros a []|]. cbn [cnt] in C.
      intros a [<-|I]; [destruct (au_done y); [reflexivity|cbn [negb] in C; lia]|apply IH; [lia|exact I]].
    - intros [-> D]. cbn [length]. induction (fd_authors s) as [|y m IH]; [reflexivity|]. cbn [cnt]. rewrite (D y (or_introl eq_refl)). cbn [negb]. cbn [length] in IH. apply IH. intros a I. apply D. right. exact I. }
  rewrite <- Q. split; [exact S3|apply S4; exact NE].
Qed.

(** When the context is canceled and the consumer keeps reading, the feed ends: *)
Definition winding_down (x : faction) : Prop := match x with FNext _ | FTake _ | FDone _ => True | _ => False end.
Lemma find_live s : fd_todo s = [] -> active s <> 0%nat -> exists i a, nth_error (fd_authors s) i = Some a /\ au_done a = false.
Proof.
  unfold active. intros ->. cbn [length Nat.add]. induction (fd_authors s) as [|y m IH]; cbn [cnt]; [congruence|]. intro Q. destruct (au_done y) eqn:D; [|exists 0%nat, y; auto]. cbn [negb Nat.add] in Q. destruct (IH Q) as (i & a & N & E). exists (S i), a. auto.
Qed.
Lemma wind_down pks kv n : forall l s, well_formed pks kv -> runs pks kv l s -> active s = n -> exists l' s', Forall winding_down l' /\ runs pks kv (l ++ l') s' /\ active s' = 0%nat.
Proof.
  induction n as [|n IH]; intros l s WF R A; [exists [], s; rewrite app_nil_r; auto|].
  pose proof (C110_no_panic _ _ _ _ WF R) as P. destruct (shut_runs _ _ _ _ R) as (SH & E0 & SUB).
  assert (GO : forall x s', winding_down x -> runs pks kv (l ++ [x]) s' -> active s' = n -> exists l' s', Forall winding_down l' /\ runs pks kv (l ++ l') s' /\ active s' = 0%nat).
  { intros x s' W R' A'. destruct (IH _ _ WF R' A') as (l' & s2 & F & R2 & A2). exists (x :: l'), s2. rewrite <- app_assoc in R2. auto. }
  assert (STEP : forall l x s s', runs pks kv l s -> feed_step x s = Some s' -> runs pks kv (l ++ [x]) s'). { unfold runs. intros l0 x s0 s' Q1 Q2. rewrite exec_app, Q1. cbn [exec]. rewrite Q2. reflexivity. }
  destruct (fd_todo s) as [|pk todo] eqn:T.
  - destruct (find_live s T) as (i & a & N & D); [lia|]. assert (C0 : fd_closed s = 0%nat) by (destruct SH as (_ & S2 & S3 & _); lia).
    assert (DN : forall l s a, runs pks kv l s -> fd_panic s = false -> fd_todo s = [] -> active s = S n -> nth_error (fd_authors s) i = Some a -> au_done a = false -> au_pending a = None -> exists s', runs pks kv (l ++ [FDone i]) s' /\ active s' = n).
    { intros l0 s0 a0 R0 P0 T0 A0 N0 D0 PE. eexists. split; [eapply STEP; [exact R0|]; cbn [feed_step]; rewrite P0, N0, D0, PE; reflexivity|].
      unfold active in *. rewrite finish_todo, finish_authors. pose proof (cnt_upd (fun a => negb (au_done a)) (fd_authors s0) i (ended a0) a0 N0) as Q. cbn [ended au_done negb] in Q. rewrite D0 in Q. cbn [negb] in Q. unfold ended in Q. lia. }
    destruct (au_pending a) as [e|] eqn:PE.
    + set (s1 := mkFeed (fd_todo s) (upd (fd_authors s) i (taken a)) (fd_active s) (fd_closed s) (fd_kv s) (fd_stored s) (fd_out s ++ [(i, e)]) (fd_panic s)).
      assert (R1 : runs pks kv (l ++ [FTake i]) s1). { eapply STEP; [exact R|]. cbn [feed_step]. rewrite P, N, D, PE, C0. unfold s1, taken. rewrite D, P, C0. reflexivity. }
      assert (N1 : nth_error (fd_authors s1) i = Some (taken a)) by (cbn [s1 fd_authors]; apply nth_upd_same; eapply nth_lt; eauto).
      destruct (DN _ s1 (taken a) R1) as (s2 & R2 & A2); auto.
      { unfold active in *. cbn [s1 fd_todo fd_authors]. rewrite (active_upd s i a (taken a) N eq_refl). exact A. }
      destruct (IH _ _ WF R2 A2) as (l' & s3 & F & R3 & A3). exists (FTake i :: FDone i :: l'), s3. rewrite <- !app_assoc in R3. split; [repeat constructor; exact F|]. auto.
    + destruct (DN _ _ _ R P T A N D PE) as (s2 & R2 & A2). eapply GO; [|exact R2|exact A2]. exact I.
  - eapply (GO (FNext false)); [exact I|eapply STEP; [exact R|]; cbn [feed_step]; rewrite P, T; reflexivity|]. unfold active in *. rewrite finish_todo, finish_authors. rewrite T in A. cbn [length] in A. lia.
Qed.
Theorem C110_can_end pks kv l s : well_formed pks kv -> runs pks kv l s -> pks <> [] -> exists l' s', Forall winding_down l' /\ runs pks kv (l ++ l') s' /\ fd_closed s' = 1%nat.
Proof.
  intros WF R NE. destruct (wind_down pks kv (active s) l s WF R eq_refl) as (l' & s' & F & R' & A). exists l', s'. split; [exact F|]. split; [exact R'|]. destruct (shut_runs _ _ _ _ R') as ((_ & _ & _ & S4 & _) & _). auto.
Qed.
(** but if the consumer stops reading, a goroutine with an event to pass on never ends, canceled or not, and the channel is never closed. *)
Theorem C110_consumer_leaves_refuted pks kv l s i a e l' s' : runs pks kv l s -> nth_error (fd_authors s) i = Some a -> au_done a = false -> au_pending a = Some e ->
  Forall (fun x => x <> FTake i) l' -> runs pks kv (l ++ l') s' -> fd_closed s' = 0%nat /\ exists a', nth_error (fd_authors s') i = Some a' /\ au_pending a' = Some e /\ au_done a' = false.
Proof.
  intros R N D PE F R'. assert (G : exists a', nth_error (fd_authors s') i = Some a' /\ au_pending a' = Some e /\ au_done a' = false).
  { unfold runs in R'. rewrite exec_app in R'. unfold runs in R. rewrite R in R'. revert l' s' F R'.
    apply (invariant_on feed_step (fun x => x <> FTake i) (fun s => exists a', nth_error (fd_authors s) i = Some a' /\ au_pending a' = Some e /\ au_done a' = false) s); [eauto|].
    intros x s1 s2 NT (b & N1 & PE1 & D1) ST. apply feed_fstep in ST as [_ ST]. inversion ST; subst; rewrite ?finish_authors; cbn [crash with_authors fd_authors]; eauto.
    - exists b. split; [apply nth_snoc_old; exact N1|auto].
    - destruct (Nat.eq_dec i0 i) as [->|NE]; [|rewrite nth_upd_other by exact NE; eauto]. rewrite nth_upd_same by (eapply nth_lt; eauto). assert (a0 = b) by congruence. subst. eauto.
    - destruct (Nat.eq_dec i0 i) as [->|NE]; [|rewrite nth_upd_other by exact NE; eauto]. rewrite nth_upd_same by (eapply nth_lt; eauto). assert (a0 = b) by congruence. subst. eauto.
    - destruct (Nat.eq_dec i0 i) as [->|NE]; [|rewrite nth_upd_other by exact NE; eauto]. rewrite nth_upd_same by (eapply nth_lt; eauto). assert (a0 = b) by congruence. subst. eauto.
    - destruct (Nat.eq_dec i0 i) as [->|NE]; [|rewrite nth_upd_other by exact NE; eauto]. rewrite nth_upd_same by (eapply nth_lt; eauto). assert (a0 = b) by congruence. subst. eauto.
    - destruct (Nat.eq_dec i0 i) as [->|NE]; [|rewrite nth_upd_other by exact NE; eauto]. congruence.
    - destruct (Nat.eq_dec i0 i) as [->|NE]; [congruence|rewrite nth_upd_other by exact NE; eauto].
    - destruct (Nat.eq_dec i0 i) as [->|NE]; [congruence|rewrite nth_upd_other by exact NE; eauto]. }
  split; [|exact G]. destruct G as (a' & N' & _ & D'). destruct (shut_runs _ _ _ _ R') as ((_ & S2 & S3 & _) & _). pose proof (live_active _ _ _ N' D'). lia.
Qed.
(** And with no keys the channel is never closed. *)
Theorem C110_no_keys_refuted kv l s : runs [] kv l s -> l = [] /\ fd_closed s = 0%nat.
Proof.
  intro R. destruct (shut_runs _ _ _ _ R) as ((_ & _ & _ & _ & S5) & _). split; [|auto]. destruct l as [|x l]; [reflexivity|]. unfold runs in R. cbn [exec] in R. destruct (feed_step x (feed_init [] kv)) as [s1|] eqn:E; [|discriminate]. exfalso.
  destruct x as [rl|i r|i r e|i r|i k|i|i]; cbn in E; try destruct i; discriminate.
Qed.

(** ** What is written down *)
Definition keyed (kv0 : list (str * str)) (s : feed) : Prop :=
  NoDup (map (stream_key "L"%char) (map au_pk (fd_authors s) ++ fd_todo s)) /\
  (forall a key, In a (fd_authors s) -> stream_key "L"%char (au_pk a) = Ok key -> assoc key (fd_kv s) = saved (assoc key kv0) (records (au_first a) (au_seen a)) /\
     match assoc key kv0 with None => au_had a = false /\ au_first a = 0 | Some d => au_had a = true /\ decode_ts d = Ok (au_first a) end) /\
  (forall pk key, In pk (fd_todo s) -> stream_key "L"%char pk = Ok key -> assoc key (fd_kv s) = assoc key kv0).
Lemma saved_snoc_no before recs t : (S (length recs) mod 10 <> 0)%nat -> saved before (recs ++ [t]) = saved before recs.
Proof.
  intro M. unfold saved. rewrite app_length. cbn [length]. assert (E : ((length recs + 1) / 10 = length recs / 10)%nat).
  { pose proof (Nat.div_mod (length recs) 10 ltac:(lia)) as D1. pose proof (Nat.mod_upper_bound (length recs) 10 ltac:(lia)) as U. symmetry. apply (Nat.div_unique _ 10 _ (length recs mod 10 + 1)); [|lia].
    destruct (Nat.eq_dec (length recs mod 10) 9) as [Q|Q]; [|lia]. exfalso. apply M. replace (S (length recs)) with (0 + (length recs / 10 + 1) * 10)%nat by lia. rewrite Nat.mod_add by lia. reflexivity. }
  rewrite E. destruct (length recs / 10)%nat as [|n] eqn:Q; [reflexivity|]. f_equal. rewrite nth_error_app1; [reflexivity|]. pose proof (Nat.div_mod (length recs) 10 ltac:(lia)). lia.
Qed.
Lemma saved_snoc_yes before recs t : (S (length recs) mod 10 = 0)%nat -> saved before (recs ++ [t]) = Some (encode_ts t).
Proof.
  intro M. unfold saved. rewrite app_length. cbn [length]. pose proof (Nat.div_mod (S (length recs)) 10 ltac:(lia)) as D. rewrite M in D. replace (length recs + 1)%nat with (S (length recs)) by lia.
  destruct (S (length recs) / 10)%nat as [|n]; [lia|]. replace (10 * S n - 1)%nat with (length recs) by lia. rewrite nth_snoc_new. reflexivity.
Qed.
Lemma keys_differ s i j a b : NoDup (map (stream_key "L"%char) (map au_pk (fd_authors s) ++ fd_todo s)) -> nth_error (fd_authors s) i = Some a -> nth_error (fd_authors s) j = Some b -> i <> j ->
  stream_key "L"%char (au_pk a) <> stream_key "L"%char (au_pk b).
Proof.
  intros ND N1 N2 NE E. rewrite map_app in ND. assert (G : i = j); [|contradiction].
  apply (proj1 (NoDup_nth_error (map (stream_key "L"%char) (map au_pk (fd_authors s)) ++ map (stream_key "L"%char) (fd_todo s))) ND).
  - rewrite app_length, !map_length. apply nth_lt in N1. lia.
  - rewrite !nth_error_app1 by (rewrite !map_length; eapply nth_lt; eassumption). rewrite !map_map. rewrite (map_nth_error (fun x => stream_key "L"%char (au_pk x)) i _ N1), (map_nth_error (fun x => stream_key "L"%char (au_pk x)) j _ N2). congruence.
Qed.
Lemma upd_map {X Y} (f : X -> Y) l i a a' : nth_error l i = Some a -> f a' = f a -> map f (upd l i a') = map f l.
Proof. revert i. induction l as [|y l IH]; intros [|i] N E; try discriminate; cbn [nth_error upd map] in *; [injection N as ->; congruence|f_equal; eauto]. Qed.
Lemma keyed_runs pks kv l s : NoDup (map (stream_key "L"%char) pks) -> runs pks kv l s -> keyed kv s.
Proof.
  intro ND. revert l s. apply runs_ind.
  { split; [exact ND|]. split; [intros a key []|reflexivity]. }
  intros l s x s' R (K1 & K2 & K3) P ST.
  assert (SAME : forall s', (exists i a a', nth_error (fd_authors s) i = Some a /\ fd_authors s' = upd (fd_authors s) i a' /\ au_pk a' = au_pk a /\ au_seen a' = au_seen a /\ au_first a' = au_first a /\ au_had a' = au_had a) -> fd_todo s' = fd_todo s -> fd_kv s' = fd_kv s -> keyed kv s').
  { intros k (i & a & a' & N & E & E1 & E2 & E3 & E4) ET EK. unfold keyed. rewrite E, ET, EK. rewrite (upd_map au_pk _ _ a) by assumption. split; [exact K1|]. split; [|exact K3].
    intros b key I KB. apply In_nth_error in I as (j & N'). apply nth_upd in N' as [[<- ->]|[_ N']]; [|apply K2; [eapply nth_error_In; eauto|exact KB]].
    rewrite E1 in KB. rewrite E2, E3, E4. apply K2; [eapply nth_error_In; eauto|exact KB]. }
  inversion ST; subst.
  - unfold keyed. rewrite finish_authors, finish_todo, finish_kv. rewrite H in K1, K3. split; [|split; [exact K2|intros pk' key I; apply K3; right; exact I]].
    rewrite map_app in K1 |- *. cbn [map] in K1. apply NoDup_remove_1 in K1. exact K1.
  - unfold keyed. cbn [fd_authors fd_todo fd_kv]. rewrite H in K1, K3. split; [|split].
    + rewrite (map_app au_pk). cbn [map fresh au_pk]. replace ((map au_pk (fd_authors s) ++ [pk]) ++ todo) with (map au_pk (fd_authors s) ++ pk :: todo) by (rewrite <- app_assoc; reflexivity). exact K1.
    + intros a k I KB. apply in_app_or in I as [I|[<-|[]]]; [auto|]. cbn [fresh au_pk au_first au_seen au_had records] in *. assert (k = key) by congruence. subst k. rewrite (K3 pk key (or_introl eq_refl) H0) in H1 |- *. split; [reflexivity|].
      destruct (assoc key kv); destruct H1 as [-> H1]; auto.
    + intros pk' k I. apply K3. right. exact I.
  - split; [exact K1|]. split; [exact K2|exact K3].
  - apply SAME; auto. exists i, a. eexists. repeat split; eauto.
  - apply SAME; auto. exists i, a. eexists. repeat split; eauto.
  - split; [exact K1|]. split; [exact K2|exact K3].
  - apply SAME; auto. exists i, a. eexists. repeat split; eauto.
  - apply SAME; auto. exists i, a. eexists. repeat split; eauto.
  - (* handled *) destruct (feed_good_runs _ _ _ _ R) as (GA & _). destruct (GA i a H) as (_ & LA & SE & _). pose proof H5 as HS. apply handle_spec in HS as (E1 & E2 & E3 & E4 & E5 & E6 & E7 & E8 & E9 & E10 & E11 & E12 & E13).
    cbn [set_queue au_pk au_had au_first au_seen au_latest au_serial au_oldest] in *.
    assert (NO : forall k, (exists pk, stream_key "L"%char pk = Ok k) -> seqb k ko = false). { intros k0 (pk & Q). destruct (seqb_spec k0 ko) as [->|_]; [|reflexivity]. apply stream_key_head in Q as (_ & r1 & Q). apply stream_key_head in H4 as (_ & r2 & H4). congruence. }
    assert (OTHER : forall pk k, stream_key "L"%char pk = Ok k -> k <> kl -> assoc k kv0 = assoc k (fd_kv s)).
    { intros pk k0 Q NE. destruct E13 as [(_ & _ & _ & ->)|[(_ & _ & _ & _ & ->)|(_ & _ & _ & _ & ->)]]; [destruct (Nat.eqb _ 0)| |reflexivity]; [|reflexivity|].
      - rewrite assoc_mset. destruct (seqb_spec k0 kl); [contradiction|reflexivity].
      - rewrite assoc_mset, NO by eauto. reflexivity. }
    unfold keyed. cbn [fd_authors fd_todo fd_kv]. rewrite (upd_map au_pk _ _ a) by assumption. split; [exact K1|]. split.
    + intros b key I KB. apply In_nth_error in I as (j & N'). apply nth_upd in N' as [[<- ->]|[NE N']].
      * rewrite E1 in KB. assert (key = kl) by congruence. subst key. rewrite E8, E3, E2. destruct (K2 a kl (nth_error_In _ _ H) H3) as [Q1 Q2]. split; [|exact Q2]. rewrite records_snoc, <- LA.
        destruct E13 as [(L & _ & _ & ->)|[(L & _ & _ & _ & ->)|(L & _ & _ & _ & ->)]].
        { apply Z.ltb_lt in L. rewrite L. rewrite SE. destruct (Nat.eqb_spec (S (length (records (au_first a) (au_seen a))) mod 10) 0) as [M|M].
          - rewrite (saved_snoc_yes _ _ _ M), assoc_mset. destruct (seqb_spec kl kl); [reflexivity|congruence].
          - rewrite (saved_snoc_no _ _ _ M). exact Q1. }
        { apply Z.ltb_ge in L. rewrite L, app_nil_r, assoc_mset, NO by eauto. exact Q1. }
        { apply Z.ltb_ge in L. rewrite L, app_nil_r. exact Q1. }
      * rewrite (OTHER _ _ KB); [apply K2; [eapply nth_error_In; eauto|exact KB]|]. intros ->. apply (keys_differ s i j a b K1 H N' NE). congruence.
    + intros pk key I KB. rewrite (OTHER _ _ KB); [apply (K3 pk); assumption|]. intros ->. apply In_nth_error in I as (j & N').
      rewrite map_app in K1. assert (G : i = (length (fd_authors s) + j)%nat).
      { apply (proj1 (NoDup_nth_error (map (stream_key "L"%char) (map au_pk (fd_authors s)) ++ map (stream_key "L"%char) (fd_todo s))) K1).
        - rewrite app_length, !map_length. apply nth_lt in H. lia.
        - rewrite nth_error_app1 by (rewrite !map_length; eapply nth_lt; eassumption). rewrite nth_error_app2 by (rewrite !map_length; lia). rewrite !map_length. replace (length (fd_authors s) + j - length (fd_authors s))%nat with j by lia.
          rewrite map_map. rewrite (map_nth_error (fun x => stream_key "L"%char (au_pk x)) i _ H), (map_nth_error (stream_key "L"%char) j _ N'). congruence. }
      apply nth_lt in H. lia.
  - split; [exact K1|]. split; [exact K2|exact K3].
  - apply SAME; auto. exists i, a. eexists. repeat split; eauto.
  - apply SAME; rewrite ?finish_todo, ?finish_kv, ?finish_authors; auto. exists i, a. eexists. repeat split; eauto.
Qed.
(** Under the author's key the store has the last record whose number is a multiple of ten: the time of the newest event at that point. *)
Theorem C110_saved pks kv l s i a key : NoDup (map (stream_key "L"%char) pks) -> runs pks kv l s -> nth_error (fd_authors s) i = Some a -> stream_key "L"%char (au_pk a) = Ok key ->
  assoc key (fd_kv s) = saved (assoc key kv) (records (au_first a) (au_seen a)) /\ match assoc key kv with None => au_had a = false /\ au_first a = 0 | Some d => au_had a = true /\ decode_ts d = Ok (au_first a) end.
Proof. intros ND R N K. destruct (keyed_runs _ _ _ _ ND R) as (_ & K2 & _). apply K2; [eapply nth_error_In; eauto|exact K]. Qed.
(** The next run asks from that record on. *)
Theorem C110_resume pks kv l s i a key s2 n t : NoDup (map (stream_key "L"%char) pks) -> runs pks kv l s -> nth_error (fd_authors s) i = Some a -> stream_key "L"%char (au_pk a) = Ok key ->
  (length (records (au_first a) (au_seen a)) / 10 = S n)%nat -> nth_error (records (au_first a) (au_seen a)) (10 * S n - 1) = Some t -> 0 <= t < 2 ^ 32 ->
  runs [au_pk a] (fd_kv s) [FNext true] s2 -> fd_authors s2 = [fresh (au_pk a) true t].
Proof.
  intros ND R N K L E T R2. destruct (C110_saved _ _ _ _ _ _ _ ND R N K) as [SV _]. unfold saved in SV. rewrite L, E in SV. cbn [option_map] in SV.
  unfold runs in R2. cbn [exec feed_step feed_init fd_panic fd_todo fd_kv negb] in R2. rewrite K, SV in R2. unfold encode_ts in R2.
  assert (D : decode_ts (put_be32 t) = Ok t) by exact (put_be32_be32 t T). rewrite D in R2. injection R2 as <-. reflexivity.
Qed.
(** The record of the oldest event is never written unless an event is from before 1970: the variable starts at 0 and only goes down. *)
Theorem C110_oldest_unwritten pks kv l s key : runs pks kv l s -> (forall i r e, In (FArrive i r e) l -> 0 <= fe_at e) -> (exists pk, stream_key "O"%char pk = Ok key) -> assoc key (fd_kv s) = assoc key kv.
Proof.
  intros R T (pk0 & KO).
  assert (G : (forall i r e, In (FArrive i r e) l -> 0 <= fe_at e) -> assoc key (fd_kv s) = assoc key kv /\ forall a, In a (fd_authors s) -> au_oldest a = 0); [|apply G; exact T].
  clear T. revert l s R. apply (runs_ind (fun l s => (forall i r e, In (FArrive i r e) l -> 0 <= fe_at e) -> assoc key (fd_kv s) = assoc key kv /\ forall a, In a (fd_authors s) -> au_oldest a = 0)).
  - intros _. split; [reflexivity|intros a []].
  - intros l s x s' R IH P ST T. assert (T' : forall i r e, In (FArrive i r e) l -> 0 <= fe_at e) by (intros i r e I; apply (T i r e); apply in_or_app; auto). destruct (IH T') as [I1 I2].
    assert (UP : forall i a a', nth_error (fd_authors s) i = Some a -> au_oldest a' = 0 -> forall b, In b (upd (fd_authors s) i a') -> au_oldest b = 0).
    { intros i a a' N E b I. apply In_nth_error in I as (j & N'). apply nth_upd in N' as [[_ ->]|[_ N']]; [exact E|]. apply I2. eapply nth_error_In; eauto. }
    inversion ST; subst; rewrite ?finish_kv, ?finish_authors; cbn [crash with_authors fd_kv fd_authors]; auto; try (split; [exact I1|]; apply (UP i a); [assumption|]; apply (I2 a); eapply nth_error_In; eauto; fail).
    + split; [exact I1|]. intros a I. apply in_app_or in I as [I|[<-|[]]]; [auto|reflexivity].
    + destruct (feed_good_runs _ _ _ _ R) as (GA & _). destruct (GA i a H) as (_ & _ & _ & _ & _ & _ & A & _).
      assert (E0 : 0 <= fe_at e). { destruct (A e) as (r & Q); [unfold all_of; apply in_or_app; right; apply in_or_app; left; eapply nth_error_In; eauto|]. exact (T' _ _ _ Q). }
      apply handle_spec in H5 as (E1 & E2 & E3 & E4 & E5 & E6 & E7 & E8 & E9 & E10 & E11 & E12 & E13). cbn [set_queue au_oldest au_latest au_serial] in E13. assert (O : au_oldest a = 0) by (apply I2; eapply nth_error_In; eauto). rewrite O in E13.
      destruct E13 as [(_ & _ & O' & ->)|[(_ & Q & _)|(_ & _ & _ & O' & ->)]]; [|lia|].
      * split; [|apply (UP i a); assumption]. destruct (Nat.eqb _ 0); [|exact I1]. rewrite assoc_mset. destruct (seqb_spec key kl) as [->|_]; [|exact I1]. apply stream_key_head in H3 as (_ & r1 & Q1). apply stream_key_head in KO as (_ & r2 & Q2). congruence.
      * split; [exact I1|apply (UP i a); assumption].
Qed.

(** ** What goes wrong, and the cases *)
Definition alice := B "0123456789abcdef0123456789abcdef0123456789abcdef0123456789abcdef".
Definition bob := B "0123456789abcdefffffffffffffffffffffffffffffffffffffffffffffffff".
Definition key_of (pk : str) : str := match stream_key "L"%char pk with Ok k => k | _ => [] end.
Definition ev (id : string) (t : Z) : fev := mkFe (B id) t.
Definition kv100 : list (str * str) := [(key_of alice, encode_ts 100)].
Definition final (pks : list str) (kv : list (str * str)) (l : list faction) : feed := match exec feed_step l (feed_init pks kv) with Some s => s | None => feed_init [] [] end.
(** The filter's since is the variable that the goroutine moves. The record is 100, the relay was asked for everything since 100 and sends its newest event first, as relays do: the older one, still newer than the record, is lost.
    Its id is marked as seen, so a second relay that has it too is ignored, even after its EOSE. *)
Theorem C110_backfill_lost_refuted : exists l s a, runs [alice] kv100 l s /\ nth_error (fd_authors s) 0 = Some a /\ au_req a = [(0%nat, Some 100); (1%nat, Some 100)] /\ au_first a = 100 /\
  times_of 0 l = [200; 190; 190] /\ map fe_id (au_seen a) = [B "new"] /\ au_queue a = [] /\ au_dropped a = [ev "old" 190].
Proof.
  pose (l := [FNext true; FReq 0 0; FReq 0 1; FArrive 0 0 (ev "new" 200); FHandle 0 0; FArrive 0 0 (ev "old" 190); FEose 0 1; FArrive 0 1 (ev "old" 190)]).
  exists l, (final [alice] kv100 l). eexists. split; [vm_compute; reflexivity|]. split; [vm_compute; reflexivity|]. repeat split; vm_compute; reflexivity.
Qed.
(** A relay that is asked later is asked for less. *)
Theorem C110_late_request_refuted : exists l s a, runs [alice] kv100 l s /\ nth_error (fd_authors s) 0 = Some a /\ au_first a = 100 /\ au_req a = [(0%nat, Some 100); (1%nat, Some 200)].
Proof.
  pose (l := [FNext true; FReq 0 0; FArrive 0 0 (ev "new" 200); FHandle 0 0; FReq 0 1]).
  exists l, (final [alice] kv100 l). eexists. split; [vm_compute; reflexivity|]. split; [vm_compute; reflexivity|]. split; vm_compute; reflexivity.
Qed.
(** The record of an author is filed under the first eight bytes of the key, and under nothing else. *)
Theorem C110_record_key prefix b : (8 <= length b)%nat -> stream_key prefix (hex_encode b) = Ok (prefix :: firstn 8 b).
Proof.
  intro L. unfold stream_key. rewrite hex_encode_length. destruct (Nat.ltb_spec (2 * length b) 16); [lia|]. change 16%nat with (8 * 2)%nat. rewrite hex_take, (hex_prefix_decode _ _ (hex_decode_encode _)).
  rewrite firstn_length_le by exact L. cbn [Nat.sub repeat]. rewrite app_nil_r. reflexivity.
Qed.
(** A key that is not in hex is filed under what can be read of its first 16 digits, filled with zero bytes. *)
Theorem C110_record_key_not_hex prefix b x rest : (length b < 8)%nat -> hex_val x = None -> (15 <= 2 * length b + length rest)%nat -> stream_key prefix (hex_encode b ++ x :: rest) = Ok (prefix :: b ++ repeat "000"%char (8 - length b)).
Proof.
  intros LB HX LR. unfold stream_key. rewrite app_length, hex_encode_length. cbn [length]. destruct (Nat.ltb_spec (2 * length b + S (length rest)) 16); [lia|].
  assert (P : forall t, hex_prefix (hex_encode b ++ x :: t) = b).
  { clear - HX. intro t. pose proof (hex_decode_encode b) as D. induction b as [|y b IH]; [destruct t; cbn; [reflexivity|rewrite HX; reflexivity]|].
    change (hex_encode (y :: b)) with (hex_encode [y] ++ hex_encode b) in *. destruct (hex_encode [y]) as [|h1 [|h2 [|]]] eqn:E; try discriminate E. cbn [app] in *. cbn [hex_decode] in D. cbn [hex_prefix].
    destruct (hex_val h1) as [v1|]; [|discriminate]. destruct (hex_val h2) as [v2|]; [|discriminate]. destruct (hex_decode (hex_encode b)) as [z|] eqn:Z; [|discriminate]. rewrite IH by (f_equal; congruence). congruence. }
  assert (F : exists t, firstn 16 (hex_encode b ++ x :: rest) = hex_encode b ++ x :: t).
  { exists (firstn (15 - 2 * length b) rest). rewrite firstn_app, hex_encode_length, firstn_all2 by (rewrite hex_encode_length; lia). f_equal. replace (16 - 2 * length b)%nat with (S (15 - 2 * length b)) by lia. reflexivity. }
  destruct F as [t ->]. rewrite P. reflexivity.
Qed.
(** Two keys that begin with the same eight bytes have one record: [bob] is asked from the time of [alice]'s events. *)
Definition ten : list faction := flat_map (fun n => [FArrive 0 0 (mkFe [byte_of (N.of_nat n)] (1000 + Z.of_nat n)); FHandle 0 0; FTake 0]) (seq 0 10).
Theorem C110_shared_record_refuted : exists l s a b, runs [alice; bob] [] l s /\ nth_error (fd_authors s) 0 = Some a /\ nth_error (fd_authors s) 1 = Some b /\ au_pk a <> au_pk b /\ au_had a = false /\ au_had b = true /\ au_first b = 1009.
Proof.
  pose (l := [FNext true; FReq 0 0] ++ ten ++ [FNext true]). exists l, (final [alice; bob] [] l). do 2 eexists. split; [vm_compute; reflexivity|]. split; [vm_compute; reflexivity|]. split; [vm_compute; reflexivity|].
  split; [vm_compute; congruence|]. repeat split; vm_compute; reflexivity.
Qed.
(** The tenth record is written, nine are not. *)
Example C110_saved_example : let s := final [alice] kv100 ([FNext true; FReq 0 0] ++ ten) in let s9 := final [alice] kv100 ([FNext true; FReq 0 0] ++ firstn 27 ten) in
  assoc (key_of alice) (fd_kv s) = Some (encode_ts 1009) /\ assoc (key_of alice) (fd_kv s9) = Some (encode_ts 100) /\ length (fd_out s9) = 9%nat /\ NoDup (map (stream_key "L"%char) [alice]).
Proof. split; [vm_compute; reflexivity|]. split; [vm_compute; reflexivity|]. split; [vm_compute; reflexivity|]. repeat constructor. intros []. Qed.
Example C110_resume_example : let s := final [alice] kv100 ([FNext true; FReq 0 0] ++ ten) in map au_first (fd_authors (final [alice] (fd_kv s) [FNext true])) = [1009].
Proof. vm_compute. reflexivity. Qed.
(** Oldest first, nothing is lost; the second author has no relays; both end and the channel closes once. *)
Definition quiet : list faction :=
  [FNext true; FReq 0 0; FNext false; FArrive 0 0 (ev "a" 90); FArrive 0 0 (ev "b" 150); FArrive 0 0 (ev "b" 150); FHandle 0 0; FArrive 0 0 (ev "c" 190); FEose 0 0; FTake 0; FHandle 0 0; FArrive 0 0 (ev "d" 200); FTake 0; FDone 0].
Example C110_example : let s := final [alice; bob] kv100 quiet in
  rising (times_of 0 quiet) /\ runs [alice; bob] kv100 quiet s /\ fd_closed s = 1%nat /\ map (fun p : nat * fev => fe_at (snd p)) (fd_out s) = [150; 190] /\ match fd_authors s with [a] => au_dropped a = [ev "a" 90] /\ au_queue a = [ev "d" 200] | _ => False end.
Proof.
  cbv zeta. split.
  { assert (E : times_of 0 quiet = [90; 150; 150; 190; 200]) by (vm_compute; reflexivity). rewrite E. clear E. cbn [rising]. repeat split; intros y Y; cbn [In] in Y; lia. }
  split; [vm_compute; reflexivity|]. split; [vm_compute; reflexivity|]. split; [vm_compute; reflexivity|]. vm_compute. split; reflexivity.
Qed.
Example C110_well_formed : well_formed [alice; bob] kv100.
Proof.
  assert (G : forall pk key d, assoc key kv100 = Some d -> stream_key "L"%char pk = Ok key -> (4 <= length d)%nat). { intros pk key d A _. unfold kv100 in A. cbn [assoc] in A. destruct (seqb key (key_of alice)); [|discriminate]. injection A as <-. unfold encode_ts. rewrite put_be32_length. lia. }
  intros pk [<-|[<-|[]]]; (split; [apply Nat.leb_le; vm_compute; reflexivity|intros key d K A; eapply G; eauto]).
Qed.
(** A consumer that leaves: the state the theorem starts from. *)
Example C110_leaves_example : exists s a, runs [alice] [] [FNext true; FReq 0 0; FArrive 0 0 (ev "x" 5); FHandle 0 0] s /\ nth_error (fd_authors s) 0 = Some a /\ au_done a = false /\ au_pending a = Some (ev "x" 5).
Proof. eexists. eexists. split; [vm_compute; reflexivity|]. repeat split; vm_compute; reflexivity. Qed.
Example C110_panics_example : exists s', feed_step (FNext true) (feed_init [B "0123"] []) = Some s' /\ fd_panic s' = true.
Proof. eexists. split; vm_compute; reflexivity. Qed.

Print Assumptions C110_accounted.
Print Assumptions C110_forwarded.
Print Assumptions C110_stored.
Print Assumptions C110_dropped.
Print Assumptions C110_first_run.
Print Assumptions C110_oldest_first.
Print Assumptions C110_no_panic.
Print Assumptions C110_panics.
Print Assumptions C110_closes.
Print Assumptions C110_can_end.
Print Assumptions C110_consumer_leaves_refuted.
Print Assumptions C110_no_keys_refuted.
Print Assumptions C110_saved.
Print Assumptions C110_resume.
Print Assumptions C110_oldest_unwritten.
Print Assumptions C110_backfill_lost_refuted.
Print Assumptions C110_late_request_refuted.
Print Assumptions C110_shared_record_refuted.

Print Assumptions C110_record_key.
Print Assumptions C110_record_key_not_hex.
