(** Invariants of the batched queries. *)
From Verif Require Import Base Machine PoolModel PoolProofs BatchModel.
Import ListNotations.

(** The moves, one constructor for each way one can go. *)
Inductive bmove (s : bstate) : baction -> bstate -> Prop :=
| M_start i f : nth_error (b_fs s) i = Some f -> rq_ph (bf_in f) = QConnecting ->
    bmove s (BStart i true) (set_bf s i (mkBF (mkRQ QRunning (rq_pending (bf_in f)) (rq_eose (bf_in f))) (bf_shut f) (bf_out f)) [])
| M_start_bad i f : nth_error (b_fs s) i = Some f -> rq_ph (bf_in f) = QConnecting ->
    bmove s (BStart i false) (set_bf s i (mkBF (mkRQ QDone [] false) (bf_shut f) (bf_out f)) [OEarly i])
| M_msg_dup i id good f : nth_error (b_fs s) i = Some f -> is_connecting (bf_in f) = false -> existsb (seqb id) (b_seen s) = true ->
    bmove s (BMsg i id good) (mkBatch (b_fs s) (b_seen s) (b_ctx s) (b_closed s) (OMsg i id good (rq_eose (bf_in f) || is_done (bf_in f)) :: b_log s))
| M_msg_good i id f : nth_error (b_fs s) i = Some f -> is_connecting (bf_in f) = false -> existsb (seqb id) (b_seen s) = false ->
    bmove s (BMsg i id true) (mkBatch (upd (b_fs s) i (mkBF (mkRQ (rq_ph (bf_in f)) (rq_pending (bf_in f) ++ [(id, negb (rq_eose (bf_in f)))]) (rq_eose (bf_in f))) (bf_shut f) (bf_out f)))
      (id :: b_seen s) (b_ctx s) (b_closed s) (OMsg i id true (rq_eose (bf_in f) || is_done (bf_in f)) :: b_log s))
| M_msg_bad i id f : nth_error (b_fs s) i = Some f -> is_connecting (bf_in f) = false -> existsb (seqb id) (b_seen s) = false ->
    bmove s (BMsg i id false) (mkBatch (b_fs s) (id :: b_seen s) (b_ctx s) (b_closed s) (OMsg i id false (rq_eose (bf_in f) || is_done (bf_in f)) :: b_log s))
| M_eose i f : nth_error (b_fs s) i = Some f -> is_connecting (bf_in f) = false ->
    bmove s (BEose i) (set_bf s i (mkBF (mkRQ (rq_ph (bf_in f)) (rq_pending (bf_in f)) true) (bf_shut f) (bf_out f)) [])
| M_take i k f id st : nth_error (b_fs s) i = Some f -> rq_ph (bf_in f) = QRunning -> nth_error (rq_pending (bf_in f)) k = Some (id, st) ->
    bmove s (BTake i k) (set_bf s i (mkBF (mkRQ (QHold id st) (remove_nth k (rq_pending (bf_in f))) (rq_eose (bf_in f))) (bf_shut f) (bf_out f)) [])
| M_pass i f id st : nth_error (b_fs s) i = Some f -> rq_ph (bf_in f) = QHold id st -> bf_out f = ORange ->
    bmove s (BPass i) (set_bf s i (mkBF (mkRQ QRunning (rq_pending (bf_in f)) (rq_eose (bf_in f))) (bf_shut f) (OSend id st)) [])
| M_inend i f : nth_error (b_fs s) i = Some f -> rq_ph (bf_in f) = QRunning -> rq_eose (bf_in f) = true -> existsb snd (rq_pending (bf_in f)) = false ->
    bmove s (BInEnd i) (set_bf s i (mkBF (mkRQ QDone (rq_pending (bf_in f)) (rq_eose (bf_in f))) (bf_shut f) (bf_out f)) [])
| M_early i f : nth_error (b_fs s) i = Some f -> rq_ph (bf_in f) = QRunning ->
    bmove s (BEarly i) (set_bf s i (mkBF (mkRQ QDone (rq_pending (bf_in f)) (rq_eose (bf_in f))) (bf_shut f) (bf_out f)) [OEarly i])
| M_retry i f : nth_error (b_fs s) i = Some f -> rq_ph (bf_in f) = QRunning ->
    bmove s (BRetry i) (set_bf s i (mkBF (mkRQ QRunning [] false) (bf_shut f) (bf_out f)) [OEarly i])
| M_inctx i f : nth_error (b_fs s) i = Some f -> b_ctx s = true -> is_done (bf_in f) = false -> is_connecting (bf_in f) = false ->
    bmove s (BInCtx i) (set_bf s i (mkBF (mkRQ QDone (rq_pending (bf_in f)) (rq_eose (bf_in f))) (bf_shut f) (bf_out f)) [])
| M_shut i f : nth_error (b_fs s) i = Some f -> is_done (bf_in f) = true -> bf_shut f = false -> bmove s (BShut i) (set_bf s i (mkBF (bf_in f) true (bf_out f)) [])
| M_send i f id st : nth_error (b_fs s) i = Some f -> bf_out f = OSend id st -> bmove s (BSend i) (set_bf s i (mkBF (bf_in f) (bf_shut f) ORange) [ODeliver i id])
| M_rangeend i f : nth_error (b_fs s) i = Some f -> bf_out f = ORange -> bf_shut f = true -> bmove s (BRangeEnd i) (set_bf s i (mkBF (bf_in f) (bf_shut f) OLeft) [])
| M_leave i f id st : nth_error (b_fs s) i = Some f -> b_ctx s = true -> bf_out f = OSend id st -> bmove s (BLeave i) (set_bf s i (mkBF (bf_in f) (bf_shut f) OLeft) [])
| M_cancel : bmove s BCancel (mkBatch (b_fs s) (b_seen s) true (b_closed s) (OCancel :: b_log s))
| M_close : forallb has_left (b_fs s) = true -> b_closed s = false -> bmove s BClose (mkBatch (b_fs s) (b_seen s) (b_ctx s) true (OClose :: b_log s)).
Lemma batch_move a s s' : batch_step a s = Some s' -> bmove s a s'.
Proof.
  unfold batch_step. destruct a as [i ok|i id good|i|i k|i|i|i|i|i|i|i|i|i| |]; cbv zeta beta;
  try (destruct (nth_error (b_fs s) i) as [f|] eqn:N; [|discriminate]).
  - destruct (rq_ph (bf_in f)) eqn:P; try discriminate. destruct ok; intro E; injection E as <-; [apply M_start|apply M_start_bad]; assumption.
  - destruct (is_connecting (bf_in f)) eqn:C; [discriminate|]. destruct (existsb (seqb id) (b_seen s)) eqn:S0; [|destruct good]; intro E; injection E as <-; constructor; assumption.
  - destruct (is_connecting (bf_in f)) eqn:C; [discriminate|]. intro E; injection E as <-. apply M_eose; assumption.
  - destruct (rq_ph (bf_in f)) eqn:P; try discriminate. destruct (nth_error (rq_pending (bf_in f)) k) as [[id st]|] eqn:K; [|discriminate]. intro E; injection E as <-. apply M_take; assumption.
  - destruct (rq_ph (bf_in f)) eqn:P; try discriminate. destruct (bf_out f) eqn:O; try discriminate. intro E; injection E as <-. apply M_pass; assumption.
  - destruct (rq_ph (bf_in f)) eqn:P; try discriminate. destruct (rq_eose (bf_in f)) eqn:Eo; cbn [andb]; [|discriminate]. destruct (existsb snd (rq_pending (bf_in f))) eqn:X; [discriminate|]. intro E; injection E as <-. rewrite <- Eo. apply M_inend; assumption.
  - destruct (rq_ph (bf_in f)) eqn:P; try discriminate. intro E; injection E as <-. apply M_early; assumption.
  - destruct (rq_ph (bf_in f)) eqn:P; try discriminate. intro E; injection E as <-. apply M_retry; assumption.
  - destruct (b_ctx s) eqn:C; [|discriminate]. destruct (rq_ph (bf_in f)) eqn:P; try discriminate; intro E; injection E as <-; apply M_inctx; unfold is_done, is_connecting; rewrite ?P; auto.
  - destruct (is_done (bf_in f)) eqn:D; cbn [andb]; [|discriminate]. destruct (bf_shut f) eqn:Q; [discriminate|]. intro E; injection E as <-. apply M_shut; assumption.
  - destruct (bf_out f) eqn:O; try discriminate. intro E; injection E as <-. eapply M_send; eassumption.
  - destruct (bf_out f) eqn:O; try discriminate. destruct (bf_shut f) eqn:Q; [|discriminate]. intro E; injection E as <-. rewrite <- Q at 1. apply M_rangeend; assumption.
  - destruct (b_ctx s) eqn:C; [|discriminate]. destruct (bf_out f) eqn:O; try discriminate. intro E; injection E as <-. eapply M_leave; eassumption.
  - intro E; injection E as <-. apply M_cancel.
  - destruct (forallb has_left (b_fs s)) eqn:F; cbn [andb]; [|discriminate]. destruct (b_closed s) eqn:C; [discriminate|]. intro E; injection E as <-. apply M_close; assumption.
Qed.

(** Events with this id in the hands of a filter's two goroutines or waiting for them. *)
Definition bheld (st : bool) (id : str) (f : bf) : nat :=
  held st id (bf_in f) + match bf_out f with OSend x b => one (seqb x id && (negb st || b)) | _ => 0 end.
Definition btotal (st : bool) (id : str) (s : bstate) : nat := delivered id (b_log s) + c_total (bheld st id) (b_fs s).
Record BInv (s : bstate) : Prop := mkBI {
  bi_once : forall id, btotal false id s <= one (existsb (seqb id) (b_seen s));
  bi_all : forall id, existsb (seqb id) (b_seen s) = true -> excused id (b_log s) \/ 1 <= btotal true id s;
  bi_seen : forall i id g l, In (OMsg i id g l) (b_log s) -> existsb (seqb id) (b_seen s) = true;
  bi_done : forall i f, nth_error (b_fs s) i = Some f -> is_done (bf_in f) = true ->
     (existsb snd (rq_pending (bf_in f)) = false /\ rq_eose (bf_in f) = true) \/ In OCancel (b_log s) \/ exists i, In (OEarly i) (b_log s);
  bi_shut : forall i f, nth_error (b_fs s) i = Some f -> bf_shut f = true -> is_done (bf_in f) = true;
  bi_left : forall i f, nth_error (b_fs s) i = Some f -> bf_out f = OLeft -> bf_shut f = true \/ In OCancel (b_log s);
  bi_ctx : b_ctx s = true <-> In OCancel (b_log s);
  bi_closed : b_closed s = true -> forallb has_left (b_fs s) = true;
  bi_log : b_closed s = true <-> In OClose (b_log s);
  bi_order : in_order ok_qobs (b_log s);
  bi_held : forall i f id, nth_error (b_fs s) i = Some f -> 0 < bheld false id f -> exists l, In (OMsg i id true l) (b_log s)
}.
Ltac bproj := cbn [b_fs b_seen b_ctx b_closed b_log set_bf bf_in bf_shut bf_out rq_ph rq_pending rq_eose app In] in *.
Ltac bphases := repeat match goal with HP : rq_ph (bf_in _) = _ |- _ => rewrite HP in * | HP : bf_out _ = _ |- _ => rewrite HP in * end.
Ltac btot := match goal with HN : nth_error (b_fs ?s) _ = Some _ |- context [c_total _ (upd (b_fs ?s) _ _)] => totals_with HN end.
(** All but the counts: what a filter's two goroutines hold afterwards they held before, save for a new message. *)
Lemma done_ph r : is_done r = true -> rq_ph r = QDone.
Proof. unfold is_done. destruct (rq_ph r); congruence. Qed.
Lemma batch_inv_step a s s' : BInv s -> batch_step a s = Some s' -> BInv s'.
Proof.
  intros I H. apply batch_move in H. constructor.
  - (* once *) intro id0. pose proof (bi_once s I id0) as O. unfold btotal in *. destruct H; bproj; rewrite ?delivered_cons, ?existsb_cons_seqb; cbn [one]; try lia;
      try (btot; unfold bheld, held in *; bproj; cbn [cnt] in *; bphases; cbn [negb orb andb one] in *; rewrite ?andb_true_r in *; try lia; fail).
    + btot. unfold bheld, held in *; bproj. rewrite !cnt_app in *. rewrite !cnt_cons in *. cbn [fst snd negb orb andb one cnt] in *. rewrite ?andb_true_r in *.
      destruct (seqb id id0) eqn:Q.
      * apply seqb_eq in Q. subst id0. rewrite H1 in O. rewrite seqb_refl. cbn [one orb] in *. lia.
      * rewrite (seqb_sym id0 id), Q. cbn [orb one] in *. lia.
    + destruct (seqb id0 id); cbn [orb one]; [|lia]. destruct (existsb (seqb id0) (b_seen s)); cbn [one] in O; lia.
    + btot. pose proof (cnt_remove (fun p => seqb (fst p) id0 && (negb false || snd p)) _ _ _ H1) as R.
      unfold bheld, held in *; bproj. bphases. cbn [fst snd negb orb] in *. rewrite ?andb_true_r in *. lia.
  - (* all *) intros id0 HS. pose proof (bi_all s I id0) as O. pose proof (proj1 (bi_ctx s I)) as CT. unfold btotal in *.
    destruct H; bproj; rewrite ?delivered_cons, ?existsb_cons_seqb in *; cbn [one] in *;
      try (left; right; left; eexists; left; reflexivity); try (left; left; left; reflexivity); try (left; left; apply CT; assumption);
      try (destruct (O HS) as [O1|O1]; [left; try apply excused_cons; exact O1|]; right; try lia;
           btot; unfold bheld, held in *; bproj; cbn [cnt] in *; bphases; cbn [negb orb andb one] in *; rewrite ?andb_true_r in *; try lia; fail).
    + destruct (seqb id0 id) eqn:Q.
      * apply seqb_eq in Q. subst id0. clear O. destruct (rq_eose (bf_in f)) eqn:EE.
        -- left. right. right. exists i, true, true. split; [left; reflexivity|right; reflexivity].
        -- right. btot. unfold bheld, held in *; bproj. rewrite !cnt_app in *. rewrite !cnt_cons in *. cbn [fst snd negb orb andb one cnt] in *.
           rewrite seqb_refl in *. cbn [andb one] in *. lia.
      * cbn [orb] in HS. destruct (O HS) as [O1|O1]; [left; apply excused_cons; exact O1|]. right. btot. unfold bheld, held in *; bproj.
        rewrite !cnt_app in *. lia.
    + destruct (seqb id0 id) eqn:Q.
      * apply seqb_eq in Q. subst id0. left. right. right. eexists i, false, _. split; [left; reflexivity|left; reflexivity].
      * cbn [orb] in HS. destruct (O HS) as [O1|O1]; [left; apply excused_cons; exact O1|]. right. lia.
    + destruct (O HS) as [O1|O1]; [left; exact O1|]. right. btot. pose proof (cnt_remove (fun p => seqb (fst p) id0 && (negb true || snd p)) _ _ _ H1) as R.
      unfold bheld, held in *; bproj. bphases. cbn [fst snd negb orb] in *. lia.
    + destruct (O HS) as [O1|O1]; [left; apply excused_cons; exact O1|]. right. btot. unfold bheld, held in *; bproj. bphases.
      cbn [negb orb] in *. destruct (seqb id id0); cbn [andb one] in *; [destruct st; cbn [one] in *|]; lia.
  - (* seen *) intros j id0 g l HI. pose proof (bi_seen s I j id0 g l) as O. destruct H; bproj; rewrite ?existsb_cons_seqb;
      try (apply O; exact HI); try (destruct HI as [HI|HI]; [discriminate HI|apply O; exact HI]).
    + destruct HI as [HI|HI]; [|apply O, HI]. injection HI as <- <- <- <-. assumption.
    + destruct HI as [HI|HI]; [|rewrite (O HI); apply orb_true_r]. injection HI as <- <- <- <-. rewrite seqb_refl. reflexivity.
    + destruct HI as [HI|HI]; [|rewrite (O HI); apply orb_true_r]. injection HI as <- <- <- <-. rewrite seqb_refl. reflexivity.
  - (* done *) intros j f0 HN HD. pose proof (bi_done s I) as O. pose proof (proj1 (bi_ctx s I)) as CT.
    assert (MON : forall o, ((existsb snd (rq_pending (bf_in f0)) = false /\ rq_eose (bf_in f0) = true) \/ In OCancel (b_log s) \/ (exists i, In (OEarly i) (b_log s))) ->
      (existsb snd (rq_pending (bf_in f0)) = false /\ rq_eose (bf_in f0) = true) \/ In OCancel (o :: b_log s) \/ (exists i, In (OEarly i) (o :: b_log s))).
    { intros o [Q|[Q|[k Q]]]; [left; exact Q|right; left; right; exact Q|right; right; exists k; right; exact Q]. }
    destruct H; bproj; try (right; right; eexists; left; reflexivity); try (right; left; left; reflexivity); try (right; left; apply CT; assumption);
      try (apply nth_upd in HN as [[<- ->]|[NE HN]]; [bproj; try discriminate HD|try apply MON; eapply O; eassumption]); try (apply MON; eapply O; eassumption); try (eapply O; eassumption).
    + destruct (O _ _ H HD) as [[Q1 Q2]|[Q|[k Q]]]; [|right; left; right; exact Q|right; right; exists k; right; exact Q].
      left. split; [|exact Q2]. rewrite existsb_app, Q1, Q2. reflexivity.
    + destruct (O _ _ H HD) as [[Q1 Q2]|Q]; [left; split; [exact Q1|reflexivity]|right; exact Q].
    + left. split; assumption.
  - (* shut *) intros j f0 HN HQ. pose proof (bi_shut s I) as O.
    destruct H; bproj; try (eapply O; eassumption); (apply nth_upd in HN as [[<- ->]|[NE HN]]; [|eapply O; eassumption]); bproj; try assumption; try reflexivity; try (specialize (O _ _ H HQ); apply done_ph in O; congruence); try (eapply O; eassumption).
  - (* left *) intros j f0 HN HQ. pose proof (bi_left s I) as O. pose proof (proj1 (bi_ctx s I)) as CT.
    assert (MON : forall o f1, bf_shut f1 = true \/ In OCancel (b_log s) -> bf_shut f1 = true \/ In OCancel (o :: b_log s)) by (intros o f1 [Q|Q]; [left; exact Q|right; right; exact Q]).
    destruct H; bproj; try (right; left; reflexivity); try (right; apply CT; assumption);
      try (apply nth_upd in HN as [[<- ->]|[NE HN]]; bproj); try discriminate HQ; try (left; assumption); try (left; reflexivity);
      try (eapply O; eassumption); try (apply (MON _ f0); eapply O; eassumption); try (apply (MON _ f); eapply O; eassumption).
  - (* ctx *) pose proof (bi_ctx s I) as O. destruct H; bproj; rewrite ?O; try tauto; try (split; [tauto|intros [Q|Q]; [discriminate Q|exact Q]]; fail).
  - (* closed *) pose proof (bi_closed s I) as CL.
    assert (K : forall i r x, nth_error (b_fs s) i = Some r -> (has_left r = true -> has_left x = true) -> forallb has_left (b_fs s) = true -> forallb has_left (upd (b_fs s) i x) = true).
    { intros i r x HN Q F. apply forallb_forall. intros y Hy. apply In_nth_error in Hy as [k Hk]. apply nth_upd in Hk as [[<- ->]|[NE Hk]].
      - apply Q. rewrite forallb_forall in F. apply F. eapply nth_error_In. exact HN.
      - rewrite forallb_forall in F. apply F. eapply nth_error_In. exact Hk. }
    destruct H; bproj; intro C; auto; (eapply K; [eassumption|unfold has_left; bproj; bphases; auto; try discriminate|apply CL, C]).
  - (* log *) pose proof (bi_log s I) as O. destruct H; bproj; rewrite ?O; try tauto; try (split; [tauto|intros [Q|Q]; [discriminate Q|exact Q]]; fail).
  - (* order *) pose proof (bi_order s I) as O. pose proof (bi_held s I) as HE. pose proof (bi_log s I) as L. pose proof (bi_closed s I) as CL.
    destruct H; bproj; cbn [in_order ok_qobs]; auto.
    + split; [|exact O]. split.
      * intro Q. apply L in Q. specialize (CL Q). rewrite forallb_forall in CL. apply nth_error_In in H. apply CL in H. unfold has_left in H. rewrite H0 in H. discriminate.
      * apply (HE _ _ id H). unfold bheld. rewrite H0, seqb_refl. cbn. lia.
    + split; [|exact O]. intro Q. apply L in Q. congruence.
  - (* held ones were sent *) intros j f0 id0 HN HP. pose proof (bi_held s I) as HE.
    destruct H; bproj; try (destruct (HE _ _ _ HN HP) as (l & Q); exists l; auto; fail);
      (apply nth_upd in HN as [[<- ->]|[NE HN]]; [|destruct (HE _ _ _ HN HP) as (l & Q); exists l; auto; fail]);
      specialize (HE _ _ id0 H); unfold bheld, held in HP, HE; bproj; bphases; cbn [cnt] in *; rewrite ?Nat.add_0_r in *;
      try (destruct HE as (l & Q); [lia|]; exists l; auto; fail).
    + rewrite cnt_app, cnt_cons in HP. cbn [fst snd negb orb cnt] in HP, HE. rewrite ?andb_true_r in HP. destruct (seqb id id0) eqn:Q.
      * apply seqb_eq in Q. subst id0. eexists. left. reflexivity.
      * destruct HE as (l & QQ); [cbn [one] in HP; lia|]. exists l. auto.
    + pose proof (cnt_remove (fun p => seqb (fst p) id0 && (negb false || snd p)) _ _ _ H1) as R. cbn [fst snd negb orb] in *. rewrite ?andb_true_r in *. destruct HE as (l & Q); [lia|]. exists l; auto.
Qed.
Definition batch_reachable (n : nat) (s : bstate) : Prop := reaches batch_step (batch_init n) s.
Lemma batch_inv n s : batch_reachable n s -> BInv s.
Proof.
  apply (invariant batch_step BInv); [|intros a s1 s2 I H; eapply batch_inv_step; eassumption].
  set (f0 := mkBF (mkRQ QConnecting [] false) false ORange).
  assert (R : forall i r, nth_error (repeat f0 n) i = Some r -> r = f0) by (intros i r H; apply nth_error_In in H; apply repeat_spec in H; exact H).
  constructor; [|cbn; try discriminate; try tauto..].
  - intro id. assert (Z : c_total (bheld false id) (repeat f0 n) = 0) by (clear; induction n as [|n IH]; [reflexivity|exact IH]).
    unfold btotal, batch_init. cbn [b_log b_fs]. fold f0. rewrite Z. cbn. lia.
  - intros i r H HD. apply R in H. subst. discriminate.
  - intros i r H HD. apply R in H. subst. discriminate.
  - intros i r H HD. apply R in H. subst. discriminate.
  - split; [discriminate|intros []].
  - split; [discriminate|intros []].
  - intros i r id H HP. apply R in H. subst. cbn in HP. lia.
Qed.

(** ** Moves of the goroutines themselves; BSend needs a receiver. *)
Definition b_internal (a : baction) : bool := match a with BTake _ _ | BPass _ | BInEnd _ | BInCtx _ | BShut _ | BRangeEnd _ | BLeave _ | BClose => true | _ => false end.
Definition is_send (a : baction) : bool := match a with BSend _ => true | _ => false end.
Definition bf_weight (f : bf) : nat :=
  3 * length (rq_pending (bf_in f)) + match rq_ph (bf_in f) with QConnecting => 1 | QRunning => 1 | QHold _ _ => 3 | QDone => 0 end +
  match bf_out f with ORange => 1 | OSend _ _ => 2 | OLeft => 0 end + one (negb (bf_shut f)).
Definition b_weight (s : bstate) : nat := c_total bf_weight (b_fs s) + one (negb (b_closed s)).
Lemma batch_weight a s s' : b_internal a || is_send a = true -> batch_step a s = Some s' -> b_weight s' < b_weight s.
Proof.
  intros HA H. apply batch_move in H. unfold b_weight. destruct H; try discriminate HA; bproj; try btot; unfold bf_weight in *; bproj; bphases; try lia.
  - pose proof (remove_nth_length _ _ _ H1). lia.
  - unfold is_done, is_connecting in *. destruct (rq_ph (bf_in f)); try discriminate; lia.
  - rewrite H1 in *. cbn [negb one] in *. lia.
  - rewrite H0. cbn. lia.
Qed.
(** When none is left all is closed: with a receiver once every relay has answered, and without one after a cancel. *)
Definition all_shut (s : bstate) : Prop := b_closed s = true /\ forall i f, nth_error (b_fs s) i = Some f -> is_done (bf_in f) = true /\ bf_shut f = true /\ bf_out f = OLeft.
Lemma batch_quiet s : BInv s -> (forall a, b_internal a = true -> batch_step a s = None) ->
  (forall i f, nth_error (b_fs s) i = Some f -> is_connecting (bf_in f) = false) ->
  (b_ctx s = true \/ ((forall i, batch_step (BSend i) s = None) /\ forall i f, nth_error (b_fs s) i = Some f -> rq_eose (bf_in f) = true \/ is_done (bf_in f) = true)) -> all_shut s.
Proof.
  intros I Q W V.
  assert (D : forall i f, nth_error (b_fs s) i = Some f -> is_done (bf_in f) = true /\ bf_shut f = true /\ bf_out f = OLeft).
  { intros i f Hi. pose proof (W i f Hi) as W1. pose proof (bi_shut s I i f Hi) as SH. pose proof (bi_left s I i f Hi) as LE. pose proof (proj2 (bi_ctx s I)) as CT.
    pose proof (Q (BPass i) eq_refl) as QP. pose proof (Q (BInEnd i) eq_refl) as QE. pose proof (Q (BInCtx i) eq_refl) as QC. pose proof (Q (BShut i) eq_refl) as QS. pose proof (Q (BRangeEnd i) eq_refl) as QR. pose proof (Q (BLeave i) eq_refl) as QL.
    cbn [batch_step] in QP, QE, QC, QS, QR, QL. rewrite Hi in QP, QE, QC, QS, QR, QL.
    assert (IN : is_done (bf_in f) = true).
    { unfold is_done, is_connecting in *. destruct (rq_ph (bf_in f)) eqn:P; try discriminate; [| |reflexivity].
      - destruct (b_ctx s) eqn:C; [discriminate|]. destruct V as [V|[_ V]]; [discriminate|]. destruct (V i f Hi) as [E|E]; [|rewrite P in E; discriminate]. rewrite E in QE. cbn [andb] in QE.
        destruct (existsb snd (rq_pending (bf_in f))) eqn:X; [|discriminate]. apply existsb_exists in X as ([id b] & X & _). apply In_nth_error in X as [k X]. pose proof (Q (BTake i k) eq_refl) as QT. cbn [batch_step] in QT. rewrite Hi, P, X in QT. discriminate.
      - destruct (b_ctx s) eqn:C; [discriminate|]. destruct V as [V|[V _]]; [discriminate|]. specialize (V i). cbn [batch_step] in V. rewrite Hi in V. destruct (bf_out f) eqn:O; try discriminate.
        destruct (LE eq_refl) as [Z|Z]; [exact (SH Z)|]. apply CT in Z. discriminate. }
    split; [exact IN|]. rewrite IN in QS. cbn [andb] in QS. destruct (bf_shut f) eqn:SS; [|discriminate]. split; [reflexivity|].
    destruct (bf_out f) eqn:O; [discriminate| |reflexivity]. destruct V as [V|[V _]]; [rewrite V in QL; discriminate|]. specialize (V i). cbn [batch_step] in V. rewrite Hi, O in V. discriminate. }
  split; [|exact D]. destruct (b_closed s) eqn:C; [reflexivity|]. specialize (Q BClose eq_refl). cbn [batch_step] in Q. rewrite C in Q.
  replace (forallb has_left (b_fs s)) with true in Q; [discriminate|]. symmetry. apply forallb_forall. intros f Hf. apply In_nth_error in Hf as [i Hi]. destruct (D i f Hi) as (_ & _ & O). unfold has_left. rewrite O. reflexivity.
Qed.

(** ** QuerySingle *)
Definition any_delivered (log : list qobs) : nat := cnt (fun o => match o with ODeliver _ _ => true | _ => false end) log.
Definition single_reachable (n : nat) (s : sstate) : Prop := reaches single_step (single_init n) s.
Lemma query_other_delivers a q q' : (forall i, a <> YDeliver i) -> query_step a q = Some q' -> any_delivered (q_log q') = any_delivered (q_log q) /\ (forall i id, In (ODeliver i id) (q_log q') <-> In (ODeliver i id) (q_log q)).
Proof.
  intros N H. query_cases H; try (split; [reflexivity|]; intros; cbn [In]; intuition congruence); exfalso; eapply N; reflexivity.
Qed.
Record SInv (n : nat) (s : sstate) : Prop := mkSI {
  si_reach : query_reachable n (ss_q s);
  si_ph : match ss_ph s with
          | SWaiting => any_delivered (q_log (ss_q s)) = 0
          | SGot id => any_delivered (q_log (ss_q s)) = 1 /\ exists i, In (ODeliver i id) (q_log (ss_q s))
          | SReturned (Some id) => any_delivered (q_log (ss_q s)) = 1 /\ (exists i, In (ODeliver i id) (q_log (ss_q s))) /\ (q_ctx (ss_q s) = true)
          | SReturned None => any_delivered (q_log (ss_q s)) = 0 /\ q_closed (ss_q s) = true
          end }.
Lemma query_ctx_stays a q q' : q_ctx q = true -> query_step a q = Some q' -> q_ctx q' = true.
Proof. intros C H. query_cases H; auto. Qed.
Lemma query_closed_stays a q q' : q_closed q = true -> query_step a q = Some q' -> q_closed q' = true.
Proof. intros C H. query_cases H; auto; congruence. Qed.
Lemma query_closed_ctx n q : query_reachable n q -> q_closed q = true -> q_ctx q = true.
Proof.
  intro R. revert q R. apply (invariant query_step (fun q => q_closed q = true -> q_ctx q = true)); [discriminate|]. intros a s s' IH H C. query_cases H; auto.
Qed.
Lemma single_inv n : forall s, single_reachable n s -> SInv n s.
Proof.
  apply (invariant single_step (SInv n)); [split; [apply reaches_refl|reflexivity]|]. intros a s s' [R P] H. destruct a as [a|i| |]; cbn [single_step] in H.
  - assert (G : (forall i, a <> YDeliver i) /\ exists q, query_step a (ss_q s) = Some q /\ s' = mkSingle q (ss_ph s)).
    { destruct a; try discriminate H; (split; [discriminate|]); destruct (query_step _ (ss_q s)) as [q|]; try discriminate; exists q; (split; [reflexivity|congruence]). }
    destruct G as (N & q & E & ->). destruct (query_other_delivers _ _ _ N E) as [D1 D2]. split; cbn [ss_q ss_ph].
    + eapply reaches_trans; [exact R|]. eapply reaches_step. exact E.
    + rewrite D1. destruct (ss_ph s) as [|id|[id|]].
      * exact P.
      * destruct P as [P [i Pi]]. split; [exact P|]. exists i. apply D2, Pi.
      * destruct P as (P & [i Pi] & C). split; [exact P|]. split; [exists i; apply D2, Pi|]. eapply query_ctx_stays; eassumption.
      * destruct P as (P & C). split; [exact P|]. eapply query_closed_stays; eassumption.
  - destruct (ss_ph s) eqn:Ph; try discriminate. destruct (nth_error (q_relays (ss_q s)) i) as [r|] eqn:Hi; [|discriminate]. destruct (rq_ph r) eqn:Pr; try discriminate.
    destruct (query_step (YDeliver i) (ss_q s)) as [q|] eqn:E; [|discriminate]. assert (s' = mkSingle q (SGot id)) as -> by congruence. split; cbn [ss_q ss_ph].
    + eapply reaches_trans; [exact R|]. eapply reaches_step. exact E.
    + cbn [query_step] in E. rewrite Hi, Pr in E. assert (q = with_relay (ss_q s) i (mkRQ QRunning (rq_pending r) (rq_eose r)) [ODeliver i id]) as -> by congruence. cbn [with_relay q_log app]. unfold any_delivered in *. cbn [cnt]. split; [lia|]. exists i. left. reflexivity.
  - destruct (ss_ph s) eqn:Ph; try discriminate. assert (s' = mkSingle (match query_step YCancel (ss_q s) with Some q => q | None => ss_q s end) (SReturned (Some id))) as -> by congruence.
    destruct P as [P [i Pi]]. split; cbn [ss_q ss_ph].
    + destruct (query_step YCancel (ss_q s)) as [q|] eqn:E; [|exact R]. eapply reaches_trans; [exact R|]. eapply reaches_step. exact E.
    + cbn [query_step]. destruct (q_closed (ss_q s)) eqn:C; cbn [q_log q_ctx].
      * split; [exact P|]. split; [exists i; exact Pi|]. eapply query_closed_ctx; eassumption.
      * split; [exact P|]. split; [exists i; right; exact Pi|reflexivity].
  - destruct (ss_ph s) eqn:Ph; try discriminate. destruct (q_closed (ss_q s)) eqn:C; [|discriminate]. assert (s' = mkSingle (ss_q s) (SReturned None)) as -> by congruence. split; cbn [ss_q ss_ph]; [exact R|]. split; assumption.
Qed.

(** ** Slices *)
Lemma arr_upd_same m a l : a < length m -> arr_of (upd m a l) a = l.
Proof. intro H. unfold arr_of. rewrite nth_upd_same by exact H. reflexivity. Qed.
Lemma firstn_upd (l : list nat) n x : n < length l -> firstn (S n) (upd l n x) = firstn n l ++ [x].
Proof. revert n. induction l as [|y l IH]; intros [|n] H; cbn [length] in H; try lia; [reflexivity|]. cbn [upd]. change (firstn (S (S n)) (y :: upd l n x)) with (y :: firstn (S n) (upd l n x)). rewrite IH by lia. reflexivity. Qed.
Lemma upd_upd {X} (l : list X) i x y : upd (upd l i x) i y = upd l i y.
Proof. revert i. induction l as [|z l IH]; intros [|i]; cbn; [reflexivity|reflexivity|reflexivity|]. rewrite IH. reflexivity. Qed.
