(** Synchronising with a relay: C101. *)
From Verif Require Import Base Machine NegSyncModel.
Import ListNotations.
Local Open Scope nat_scope.

(** * Spec: what reconciliation said should go each way, and what was asked of the source. *)
Definition wanted (d : side) (p : list ract) : list str := flat_map (fun a => match a, d with RHave x, Up => [x] | RNeed x, Down => [x] | _, _ => [] end) p.
Definition asked (d : side) (bs : list batch) : list str := flat_map (fun b => if side_eqb (b_side b) d then b_ids b else []) bs.
Definition sends (a : ract) : Prop := match a with RHave _ | RNeed _ => True | _ => False end.
(** The relay's part in order: ids, then the end or an error. *)
Definition orderly (p : list ract) : Prop := exists body z, p = body ++ [z] /\ Forall sends body /\ (z = RClose \/ z = RError).
Definition on (d : side) (up down : bool) : bool := match d with Up => up | Down => down end.

Lemma asked_app d a b : asked d (a ++ b) = asked d a ++ asked d b.
Proof. apply flat_map_app. Qed.
Lemma asked_upd d bs i b : nth_error bs i = Some b -> asked d (upd bs i (mkBatch (b_side b) (b_ids b) false)) = asked d bs.
Proof. revert i. induction bs as [|x bs IH]; intros [|i] H; cbn [nth_error upd] in *; try discriminate. - assert (x = b) as -> by congruence. reflexivity. - change (asked d (x :: upd bs i (mkBatch (b_side b) (b_ids b) false))) with ((if side_eqb (b_side x) d then b_ids x else []) ++ asked d (upd bs i (mkBatch (b_side b) (b_ids b) false))). rewrite (IH i H). reflexivity. Qed.
Definition fresh (d : side) (bs : list batch) (ids taken : list str) : Prop := NoDup (asked d bs ++ ids) /\ forall x, In x (asked d bs ++ ids) <-> In x taken.
Definition side_inv (d : side) (p0 : list ract) (s : nst) : Prop :=
  exists taken, wanted d p0 = taken ++ queue d s ++ wanted d (s_prog s) /\
  match wk d s with
  | W_off => taken = [] /\ asked d (s_batches s) = []
  | W_run ids seen => (forall x, In x seen <-> In x taken) /\ fresh d (s_batches s) ids taken /\ length ids < 50
  | W_last ids => queue d s = [] /\ s_closed s = true /\ fresh d (s_batches s) ids taken /\ length ids < 50
  | W_done => queue d s = [] /\ s_closed s = true /\ fresh d (s_batches s) [] taken
  end.
Definition sized (b : batch) : Prop := 1 <= length (b_ids b) <= 50.
Definition inv (p0 : list ract) (s : nst) : Prop := side_inv Up p0 s /\ side_inv Down p0 s /\ Forall sized (s_batches s).

Lemma side_of (d d' : side) : d = d' \/ side_eqb d' d = false.
Proof. destruct d, d'; auto. Qed.
(** A step that leaves this side alone *)
Lemma same_side d p0 s s' : side_inv d p0 s -> queue d s' = queue d s -> wanted d (s_prog s') = wanted d (s_prog s) -> wk d s' = wk d s -> asked d (s_batches s') = asked d (s_batches s) -> (s_closed s = true -> s_closed s' = true) -> side_inv d p0 s'.
Proof.
  intros (taken & E & H) Q P W A C. exists taken. rewrite Q, P. split; [exact E|]. rewrite W. unfold fresh in *. rewrite A. destruct (wk d s); intuition.
Qed.
Lemma sized_upd bs i b : Forall sized bs -> nth_error bs i = Some b -> Forall sized (upd bs i (mkBatch (b_side b) (b_ids b) false)).
Proof.
  intro F. revert i. induction F as [|x bs H F IH]; intros [|i] E; cbn [nth_error upd] in *; try discriminate. - assert (x = b) as -> by congruence. constructor; [exact H|exact F]. - constructor; [exact H|exact (IH i E)].
Qed.
Lemma take_side d p0 s x q ids seen : side_inv d p0 s -> wk d s = W_run ids seen -> queue d s = x :: q ->
  if existsb (seqb x) seen then side_inv d p0 (set_queue d q s) else
  if length (ids ++ [x]) =? 50 then side_inv d p0 (set_wk d (W_run [] (x :: seen)) (set_queue d q (set_batches (s_batches s ++ [mkBatch d (ids ++ [x]) true]) s)))
  else side_inv d p0 (set_wk d (W_run (ids ++ [x]) (x :: seen)) (set_queue d q s)).
Proof.
  intros (taken & E & H) W Q. rewrite W in H. destruct H as (HS & [ND HT] & LT). rewrite Q in E.
  destruct (existsb (seqb x) seen) eqn:X.
  - apply existsb_exists in X. destruct X as (y & Iy & Ey). apply seqb_eq in Ey. subst y. exists (taken ++ [x]).
    assert (QQ : queue d (set_queue d q s) = q /\ wk d (set_queue d q s) = W_run ids seen /\ s_prog (set_queue d q s) = s_prog s /\ s_batches (set_queue d q s) = s_batches s) by (destruct d; cbn; auto). destruct QQ as (-> & -> & -> & ->).
    split; [rewrite E, <- app_assoc; reflexivity|]. assert (IT : In x taken) by (apply HS, Iy). assert (G : forall z, In z (taken ++ [x]) <-> In z taken). { intro z. rewrite in_app_iff. cbn [In]. split; [intros [?|[<-|[]]]; auto|auto]. }
    split; [intro z; rewrite G; apply HS|]. split; [split; [exact ND|intro z; rewrite G; apply HT]|exact LT].
  - assert (NX : ~ In x (asked d (s_batches s) ++ ids)). { intro I. apply HT, HS in I. assert (T : existsb (seqb x) seen = true) by (apply existsb_exists; exists x; split; [exact I|apply seqb_refl]). congruence. }
    assert (NDX : NoDup ((asked d (s_batches s) ++ ids) ++ [x])). { clear - ND NX. induction ND as [|y l Ny ND IH]; [constructor; [intros []|constructor]|]. cbn [app]. constructor; [|apply IH; intro I; apply NX; right; exact I]. intro I. apply in_app_or in I. destruct I as [I|[I|[]]]; [exact (Ny I)|]. subst. apply NX. left. reflexivity. }
    assert (G1 : forall z, In z ((asked d (s_batches s) ++ ids) ++ [x]) <-> In z (taken ++ [x])) by (intro z; rewrite !in_app_iff; cbn [In]; rewrite <- HT, in_app_iff; tauto).
    assert (G2 : forall z, In z (x :: seen) <-> In z (taken ++ [x])) by (intro z; rewrite in_app_iff; cbn [In]; rewrite HS; tauto).
    destruct (Nat.eqb_spec (length (ids ++ [x])) 50) as [L|L].
    + exists (taken ++ [x]). set (s' := set_wk d _ _). assert (QQ : queue d s' = q /\ wk d s' = W_run [] (x :: seen) /\ s_prog s' = s_prog s /\ s_batches s' = s_batches s ++ [mkBatch d (ids ++ [x]) true]) by (unfold s'; destruct d; cbn; auto). destruct QQ as (-> & -> & -> & ->).
      split; [rewrite E, <- app_assoc; reflexivity|]. split; [exact G2|]. split; [|cbn; lia]. unfold fresh. rewrite asked_app. assert (A1 : asked d [mkBatch d (ids ++ [x]) true] = ids ++ [x]) by (unfold asked; cbn [flat_map b_side b_ids]; destruct d; cbn [side_eqb]; apply app_nil_r). rewrite A1, app_nil_r, app_assoc. auto.
    + exists (taken ++ [x]). set (s' := set_wk d _ _). assert (QQ : queue d s' = q /\ wk d s' = W_run (ids ++ [x]) (x :: seen) /\ s_prog s' = s_prog s /\ s_batches s' = s_batches s) by (unfold s'; destruct d; cbn; auto). destruct QQ as (-> & -> & -> & ->).
      split; [rewrite E, <- app_assoc; reflexivity|]. split; [exact G2|]. rewrite app_length in *. cbn [length] in *. split; [|lia]. unfold fresh. rewrite app_assoc. auto.
Qed.
Lemma push_side d p0 s x p : side_inv d p0 s -> s_closed s = false -> wanted d (s_prog s) = x :: wanted d p -> side_inv d p0 (set_prog p (set_queue d (queue d s ++ [x]) s)).
Proof.
  intros (taken & E & H) C P. exists taken. set (s' := set_prog _ _). assert (QQ : queue d s' = queue d s ++ [x] /\ wk d s' = wk d s /\ s_prog s' = p /\ s_batches s' = s_batches s /\ s_closed s' = s_closed s) by (unfold s'; destruct d; cbn; auto). destruct QQ as (-> & -> & -> & -> & ->).
  split; [rewrite E, P, <- app_assoc; reflexivity|]. destruct (wk d s); try assumption; destruct H as (_ & H & _); congruence.
Qed.
Lemma end_side d p0 s ids seen : side_inv d p0 s -> wk d s = W_run ids seen -> queue d s = [] -> s_closed s = true -> side_inv d p0 (set_wk d (W_last ids) s).
Proof.
  intros (taken & E & H) W Q C. rewrite W in H. destruct H as (_ & F & L). exists taken. assert (QQ : queue d (set_wk d (W_last ids) s) = queue d s /\ wk d (set_wk d (W_last ids) s) = W_last ids /\ s_prog (set_wk d (W_last ids) s) = s_prog s /\ s_batches (set_wk d (W_last ids) s) = s_batches s /\ s_closed (set_wk d (W_last ids) s) = s_closed s) by (destruct d; cbn; auto).
  destruct QQ as (-> & -> & -> & -> & ->). auto.
Qed.
Lemma last_side d p0 s ids b0 : side_inv d p0 s -> wk d s = W_last ids -> side_inv d p0 (set_wk d W_done (set_batches (s_batches s ++ [mkBatch d ids b0]) s)).
Proof.
  intros (taken & E & H) W. rewrite W in H. destruct H as (Q & C & F & L). exists taken. set (s' := set_wk d _ _). assert (QQ : queue d s' = queue d s /\ wk d s' = W_done /\ s_prog s' = s_prog s /\ s_batches s' = s_batches s ++ [mkBatch d ids b0] /\ s_closed s' = s_closed s) by (unfold s'; destruct d; cbn; auto). destruct QQ as (-> & -> & -> & -> & ->).
  split; [exact E|]. split; [exact Q|]. split; [exact C|]. unfold fresh in *. rewrite asked_app. assert (A1 : asked d [mkBatch d ids b0] = ids) by (unfold asked; cbn [flat_map b_side b_ids]; destruct d; cbn [side_eqb]; apply app_nil_r). rewrite A1, app_nil_r. exact F.
Qed.
Lemma last_side0 d p0 s : side_inv d p0 s -> wk d s = W_last [] -> side_inv d p0 (set_wk d W_done s).
Proof.
  intros (taken & E & H) W. rewrite W in H. destruct H as (Q & C & F & L). exists taken. set (s' := set_wk d _ _). assert (QQ : queue d s' = queue d s /\ wk d s' = W_done /\ s_prog s' = s_prog s /\ s_batches s' = s_batches s /\ s_closed s' = s_closed s) by (unfold s'; destruct d; cbn; auto). destruct QQ as (-> & -> & -> & -> & ->). auto.
Qed.
Lemma other d d' : side_eqb d d' = false -> forall w q b s, queue d (set_wk d' w s) = queue d s /\ wk d (set_wk d' w s) = wk d s /\ queue d (set_queue d' q s) = queue d s /\ wk d (set_queue d' q s) = wk d s /\ queue d (set_batches b s) = queue d s /\ wk d (set_batches b s) = wk d s.
Proof. intros H w q b s. destruct d, d'; try discriminate; cbn; auto 10. Qed.
Lemma still d d' w q b m p s : s_prog (set_wk d' w s) = s_prog s /\ s_prog (set_queue d' q s) = s_prog s /\ s_closed (set_wk d' w s) = s_closed s /\ s_closed (set_queue d' q s) = s_closed s /\ s_batches (set_wk d' w s) = s_batches s /\ s_batches (set_queue d' q s) = s_batches s /\
  queue d (set_main m s) = queue d s /\ wk d (set_main m s) = wk d s /\ queue d (set_prog p s) = queue d s /\ wk d (set_prog p s) = wk d s /\ queue d (set_closed s) = queue d s /\ wk d (set_closed s) = wk d s /\ queue d (crash s) = queue d s /\ wk d (crash s) = wk d s /\
  s_main (set_wk d' w s) = s_main s /\ s_main (set_queue d' q s) = s_main s /\ s_crashed (set_wk d' w s) = s_crashed s /\ s_crashed (set_queue d' q s) = s_crashed s /\ queue d (set_batches b s) = queue d s /\ wk d (set_batches b s) = wk d s.
Proof. destruct d, d'; cbn; repeat split. Qed.
Lemma asked_other d d' ids b0 bs : side_eqb d' d = false -> asked d (bs ++ [mkBatch d' ids b0]) = asked d bs.
Proof. intro H. rewrite asked_app. unfold asked at 2. cbn [flat_map b_side]. rewrite H. apply app_nil_r. Qed.
Lemma both p0 s s' : (forall d, side_inv d p0 s -> side_inv d p0 s') -> Forall sized (s_batches s') -> inv p0 s -> inv p0 s'.
Proof. intros H F (A & C & _). split; [apply H, A|]. split; [apply H, C|exact F]. Qed.
Lemma inv_step p0 a s s' : inv p0 s -> nstep a s = Some s' -> inv p0 s'.
Proof.
  intros I H. assert (FS : Forall sized (s_batches s)) by apply I. unfold nstep in H. destruct (s_crashed s); [discriminate|].
  assert (CR : Some (crash s) = Some s' -> inv p0 s'). { intro E. assert (s' = crash s) as -> by congruence. apply (both p0 s); [|exact FS|exact I]. intros d D. apply (same_side d p0 s); auto; destruct d; reflexivity. }
  destruct a as [|d|d|d ok|i ok|].
  - destruct (s_prog s) as [|[x|x| |] p] eqn:P; [discriminate| | | |].
    + destruct (s_closed s) eqn:C; [exact (CR H)|]. destruct (_ <? cap); [|discriminate]. assert (s' = set_prog p (set_queue Up (s_have s ++ [x]) s)) as -> by congruence. apply (both p0 s); [|exact FS|exact I]. intros [] D.
      * apply (push_side Up); [exact D|exact C|rewrite P; reflexivity].
      * apply (same_side Down p0 s); auto; cbn; rewrite P; reflexivity.
    + destruct (s_closed s) eqn:C; [exact (CR H)|]. destruct (_ <? cap); [|discriminate]. assert (s' = set_prog p (set_queue Down (s_need s ++ [x]) s)) as -> by congruence. apply (both p0 s); [|exact FS|exact I]. intros [] D.
      * apply (same_side Up p0 s); auto; cbn; rewrite P; reflexivity.
      * apply (push_side Down); [exact D|exact C|rewrite P; reflexivity].
    + destruct (s_closed s) eqn:C; [exact (CR H)|]. assert (s' = set_prog p (set_closed s)) as -> by congruence. apply (both p0 s); [|exact FS|exact I]. intros d D. apply (same_side d p0 s); auto; try (destruct d; reflexivity). rewrite P. destruct d; reflexivity.
    + destruct (s_main s); [discriminate|]. assert (s' = set_prog p (set_main false s)) as -> by congruence. apply (both p0 s); [|exact FS|exact I]. intros d D. apply (same_side d p0 s); auto; try (destruct d; reflexivity). rewrite P. destruct d; reflexivity.
  - destruct (wk d s) as [|ids seen|ids|] eqn:W; try discriminate. destruct (queue d s) as [|x q] eqn:Q; [discriminate|].
    assert (T : side_inv d p0 s) by (destruct I as (A & C & _); destruct d; assumption). pose proof (take_side d p0 s x q ids seen T W Q) as TS.
    assert (LL : length (ids ++ [x]) <= 50). { destruct T as (tk & _ & T). rewrite W in T. destruct T as (_ & _ & T). rewrite app_length. cbn [length]. lia. }
    destruct (existsb (seqb x) seen); [|destruct (length (ids ++ [x]) =? 50) eqn:L5].
    + assert (s' = set_queue d q s) as -> by congruence. apply (both p0 s); [|destruct d; exact FS|exact I]. intros e D. destruct (side_of d e) as [<-|N]; [exact TS|]. destruct (other e d N W_off q [] s) as (_ & _ & O1 & O2 & _). apply (same_side e p0 s); auto; destruct d; auto.
    + assert (s' = set_wk d (W_run [] (x :: seen)) (set_queue d q (set_batches (s_batches s ++ [mkBatch d (ids ++ [x]) true]) s))) as -> by congruence. apply (both p0 s); [| |exact I].
      * intros e D. destruct (side_of d e) as [<-|N]; [exact TS|]. apply (same_side e p0 s); auto; try (destruct e, d; try discriminate N; solve [auto]). destruct d; cbn [set_wk set_queue s_batches set_batches]; apply asked_other; destruct e; try discriminate N; reflexivity.
      * destruct d; cbn [set_wk set_queue s_batches set_batches]; apply Forall_app; (split; [exact FS|]); constructor; [|constructor| |constructor]; unfold sized; cbn [b_ids]; rewrite app_length in *; cbn [length] in *; lia.
    + assert (s' = set_wk d (W_run (ids ++ [x]) (x :: seen)) (set_queue d q s)) as -> by congruence. apply (both p0 s); [|destruct d; exact FS|exact I]. intros e D. destruct (side_of d e) as [<-|N]; [exact TS|]. apply (same_side e p0 s); auto; destruct e, d; try discriminate N; auto.
  - destruct (wk d s) as [|ids seen|ids|] eqn:W; try discriminate. destruct (queue d s) as [|x q] eqn:Q; [|discriminate]. destruct (s_closed s) eqn:C; [|discriminate]. assert (s' = set_wk d (W_last ids) s) as -> by congruence.
    assert (T : side_inv d p0 s) by (destruct I as (A & Cc & _); destruct d; assumption). apply (both p0 s); [|destruct d; exact FS|exact I]. intros e D. destruct (side_of d e) as [<-|N]; [exact (end_side d p0 s ids seen T W Q C)|]. apply (same_side e p0 s); auto; destruct e, d; try discriminate N; auto.
  - destruct (wk d s) as [|ids0 seen|ids|] eqn:W; try discriminate. assert (T : side_inv d p0 s) by (destruct I as (A & Cc & _); destruct d; assumption).
    assert (N1 : forall x l, ids = x :: l -> inv p0 (set_wk d W_done (set_batches (s_batches s ++ [mkBatch d ids false]) s))).
    { intros x l El. apply (both p0 s); [| |exact I].
      - intros e D. destruct (side_of d e) as [<-|N]; [exact (last_side d p0 s ids false T W)|]. apply (same_side e p0 s); auto; try (destruct e, d; try discriminate N; solve [auto]). destruct d; cbn [set_wk s_batches set_batches]; apply asked_other; destruct e; try discriminate N; reflexivity.
      - destruct T as (tk & _ & T). rewrite W in T. destruct T as (_ & _ & _ & T). destruct d; cbn [set_wk s_batches set_batches]; apply Forall_app; (split; [exact FS|]); constructor; [|constructor| |constructor]; unfold sized; cbn [b_ids]; subst ids; cbn [length] in *; lia. }
    destruct ids as [|x l].
    + destruct ok; [|discriminate]. assert (s' = set_wk d W_done s) as -> by congruence. apply (both p0 s); [|destruct d; exact FS|exact I]. intros e D. destruct (side_of d e) as [<-|N]; [exact (last_side0 d p0 s T W)|]. apply (same_side e p0 s); auto; destruct e, d; try discriminate N; auto.
    + specialize (N1 x l eq_refl). destruct ok.
      * match type of H with Some ?y = _ => assert (s' = y) as -> by congruence end. exact N1.
      * destruct (s_main s); [discriminate|]. match type of H with Some ?y = _ => assert (s' = y) as -> by congruence end. eapply both; [|exact (proj2 (proj2 N1))|exact N1]. intros e D. eapply same_side; [exact D| | | | |]; destruct e, d; auto.
  - destruct (nth_error (s_batches s) i) as [b|] eqn:Nt; [|discriminate]. destruct (b_on b); [|discriminate].
    assert (N1 : inv p0 (set_batches (upd (s_batches s) i (mkBatch (b_side b) (b_ids b) false)) s)).
    { apply (both p0 s); [|cbn [set_batches s_batches]; apply sized_upd; assumption|exact I]. intros e D. apply (same_side e p0 s); auto; try (destruct e; reflexivity). cbn [set_batches s_batches]. apply asked_upd, Nt. }
    destruct ok.
    + match type of H with Some ?y = _ => assert (s' = y) as -> by congruence end. exact N1.
    + destruct (s_main s); [discriminate|]. match type of H with Some ?y = _ => assert (s' = y) as -> by congruence end. eapply both; [|exact (proj2 (proj2 N1))|exact N1]. intros e D. eapply same_side; [exact D| | | | |]; destruct e; auto.
  - destruct (_ && _ && _); [|discriminate]. destruct (s_main s); [discriminate|]. assert (s' = set_main true s) as -> by congruence. apply (both p0 s); [|exact FS|exact I]. intros e D. apply (same_side e p0 s); auto; destruct e; auto.
Qed.
Lemma inv_init p up down : inv p (ninit p up down).
Proof.
  assert (F : forall d, fresh d [] [] []) by (intro d; split; [constructor|intro x; tauto]).
  split; [|split; [|constructor]]; exists []; (split; [reflexivity|]).
  - destruct up; [|split; reflexivity]. split; [intro x; tauto|]. split; [apply F|cbn; lia].
  - destruct down; [|split; reflexivity]. split; [intro x; tauto|]. split; [apply F|cbn; lia].
Qed.
Lemma reach_inv p up down s : reaches nstep (ninit p up down) s -> inv p s.
Proof. intro R. eapply (invariant nstep (inv p)); [apply inv_init|intros a x y; apply inv_step|exact R]. Qed.
(** Whatever the relay sends and however the goroutines run, no id is asked for twice in one direction, only ids that reconciliation named are asked for, and at most fifty at a time. *)
Theorem C101_once p up down s d : reaches nstep (ninit p up down) s -> NoDup (asked d (s_batches s)) /\ incl (asked d (s_batches s)) (wanted d p) /\ Forall (fun b => 1 <= length (b_ids b) <= 50) (s_batches s).
Proof.
  intro R. apply reach_inv in R. destruct R as (A & C & F). assert (D : side_inv d p s) by (destruct d; assumption). split; [|split; [|exact F]].
  - destruct D as (tk & _ & D). assert (G : forall ids, fresh d (s_batches s) ids tk -> NoDup (asked d (s_batches s))). { intros ids [ND _]. clear - ND. induction (asked d (s_batches s)) as [|x l IH]; [constructor|]. cbn [app] in ND. inversion ND as [|? ? N1 N2]; subst. constructor; [intro I; apply N1, in_or_app; left; exact I|apply IH, N2]. }
    destruct (wk d s); [destruct D as [_ ->]; constructor| | |]; eapply G; apply D.
  - destruct D as (tk & E & D). rewrite E. intros x I. apply in_or_app. left. assert (G : forall ids, fresh d (s_batches s) ids tk -> In x tk) by (intros ids [_ HT]; apply HT, in_or_app; left; exact I). destruct (wk d s); [destruct D as [_ D]; rewrite D in I; destruct I| | |]; eapply G; apply D.
Qed.
(** ** The relay in order *)
Definition flow (s : nst) : Prop := s_crashed s = false /\ ((s_closed s = false /\ orderly (s_prog s)) \/ (s_prog s = [] /\ (s_closed s = true \/ s_main s <> None))).
Lemma orderly_tail a p : sends a -> orderly (a :: p) -> orderly p.
Proof. intros S (body & z & E & F & Z). destruct body as [|b body]; [cbn in E; injection E as -> _; destruct Z; subst; destruct S|]. injection E as <- ->. inversion F; subst. exists body, z. auto. Qed.
Lemma orderly_last a p : ~ sends a -> orderly (a :: p) -> p = [].
Proof. intros S (body & z & E & F & Z). destruct body as [|b body]; [injection E as _ ->; reflexivity|]. injection E as <- ->. inversion F; subst. contradiction. Qed.
Lemma flow_step a s s' : flow s -> nstep a s = Some s' -> flow s'.
Proof.
  intros [NC FL] H. unfold nstep in H. rewrite NC in H. destruct a as [|d|d|d ok|i ok|].
  - destruct (s_prog s) as [|a p] eqn:P; [discriminate|]. destruct FL as [[C O]|[E _]]; [|discriminate]. rewrite C in H. destruct a as [x|x| |].
    + destruct (_ <? cap); [|discriminate]. assert (s' = set_prog p (set_queue Up (s_have s ++ [x]) s)) as -> by congruence. split; [exact NC|]. left. split; [exact C|]. exact (orderly_tail (RHave x) _ I O).
    + destruct (_ <? cap); [|discriminate]. assert (s' = set_prog p (set_queue Down (s_need s ++ [x]) s)) as -> by congruence. split; [exact NC|]. left. split; [exact C|]. exact (orderly_tail (RNeed x) _ I O).
    + assert (s' = set_prog p (set_closed s)) as -> by congruence. split; [exact NC|]. right. split; [exact (orderly_last RClose _ (fun x => x) O)|left; reflexivity].
    + destruct (s_main s) eqn:M; [discriminate|]. assert (s' = set_prog p (set_main false s)) as -> by congruence. split; [exact NC|]. right. split; [exact (orderly_last RError _ (fun x => x) O)|right; discriminate].
  - assert (G : s_crashed s' = s_crashed s /\ s_closed s' = s_closed s /\ s_prog s' = s_prog s /\ s_main s' = s_main s).
    { destruct (wk d s) as [|ids seen|ids|]; try discriminate. destruct (queue d s) as [|x q]; [discriminate|]. destruct (existsb (seqb x) seen); [|destruct (length (ids ++ [x]) =? 50)]; match type of H with Some ?y = _ => assert (s' = y) as -> by congruence end; destruct d; cbn; auto. }
    destruct G as (G1 & G2 & G3 & G4). split; [congruence|]. rewrite G2, G3, G4. exact FL.
  - assert (G : s_crashed s' = s_crashed s /\ s_closed s' = s_closed s /\ s_prog s' = s_prog s /\ s_main s' = s_main s).
    { destruct (wk d s) as [|ids seen|ids|]; try discriminate. destruct (queue d s) as [|x q]; [|discriminate]. destruct (s_closed s) eqn:C; [|discriminate]. match type of H with Some ?y = _ => assert (s' = y) as -> by congruence end. destruct d; cbn; auto. }
    destruct G as (G1 & G2 & G3 & G4). split; [congruence|]. rewrite G2, G3, G4. exact FL.
  - assert (G : s_crashed s' = s_crashed s /\ s_closed s' = s_closed s /\ s_prog s' = s_prog s /\ (s_main s <> None -> s_main s' <> None)).
    { destruct (wk d s) as [|ids0 seen|ids|]; try discriminate. destruct ids as [|x l]; (destruct ok; [|first [discriminate H|destruct (s_main s) eqn:M; [discriminate H|]]]); match type of H with Some ?y = _ => assert (s' = y) as -> by congruence end; destruct d; cbn; auto; repeat split; auto; discriminate. }
    destruct G as (G1 & G2 & G3 & G4). split; [congruence|]. rewrite G2, G3. destruct FL as [FL|[FL [FM|FM]]]; auto.
  - assert (G : s_crashed s' = s_crashed s /\ s_closed s' = s_closed s /\ s_prog s' = s_prog s /\ (s_main s <> None -> s_main s' <> None)).
    { destruct (nth_error (s_batches s) i) as [b|]; [|discriminate]. destruct (b_on b); [|discriminate]. destruct ok; [|destruct (s_main s) eqn:M; [discriminate|]]; match type of H with Some ?y = _ => assert (s' = y) as -> by congruence end; cbn; auto; repeat split; auto; discriminate. }
    destruct G as (G1 & G2 & G3 & G4). split; [congruence|]. rewrite G2, G3. destruct FL as [FL|[FL [FM|FM]]]; auto.
  - destruct (_ && _ && _); [|discriminate]. destruct (s_main s) eqn:M; [discriminate|]. assert (s' = set_main true s) as -> by congruence. split; [exact NC|]. cbn. destruct FL as [FL|[FL [FM|FM]]]; auto. congruence.
Qed.
Lemma reach_flow p up down s : orderly p -> reaches nstep (ninit p up down) s -> flow s.
Proof. intros O R. eapply (invariant nstep flow); [|intros a x y; apply flow_step|exact R]. split; [reflexivity|]. left. split; [reflexivity|exact O]. Qed.
(** Workers are there from the start or never. *)
Definition staffed (up down : bool) (s : nst) : Prop := (up = true <-> s_up s <> W_off) /\ (down = true <-> s_down s <> W_off).
Lemma staffed_step up down a s s' : staffed up down s -> nstep a s = Some s' -> staffed up down s'.
Proof.
  intros [U D] H. unfold nstep in H. destruct (s_crashed s); [discriminate|]. destruct a as [|d|d|d ok|i ok|].
  - destruct (s_prog s) as [|[x|x| |] p]; [discriminate| | | |]; try (destruct (s_closed s)); try (destruct (_ <? cap)); try (destruct (s_main s)); try discriminate; match type of H with Some ?y = _ => assert (s' = y) as -> by congruence end; split; assumption.
  - destruct (wk d s) as [|ids seen|ids|] eqn:W; try discriminate. destruct (queue d s) as [|x q]; [discriminate|]. destruct (existsb (seqb x) seen); [|destruct (length (ids ++ [x]) =? 50)]; match type of H with Some ?y = _ => assert (s' = y) as -> by congruence end; destruct d; cbn in *; split; cbn; try assumption; rewrite W in *; split; intro; try discriminate; (apply U || apply D); discriminate.
  - destruct (wk d s) as [|ids seen|ids|] eqn:W; try discriminate. destruct (queue d s) as [|x q]; [|discriminate]. destruct (s_closed s); [|discriminate]. match type of H with Some ?y = _ => assert (s' = y) as -> by congruence end. destruct d; cbn in *; split; cbn; try assumption; rewrite W in *; split; intro; try discriminate; (apply U || apply D); discriminate.
  - destruct (wk d s) as [|ids0 seen|ids|] eqn:W; try discriminate. destruct ids as [|x l]; (destruct ok; [|first [discriminate H|destruct (s_main s) eqn:M; [discriminate H|]]]); match type of H with Some ?y = _ => assert (s' = y) as -> by congruence end; destruct d; cbn in *; split; cbn; try assumption; rewrite W in *; split; intro; try discriminate; (apply U || apply D); discriminate.
  - destruct (nth_error (s_batches s) i) as [b|]; [|discriminate]. destruct (b_on b); [|discriminate]. destruct ok; [|destruct (s_main s) eqn:M; [discriminate|]]; match type of H with Some ?y = _ => assert (s' = y) as -> by congruence end; split; assumption.
  - destruct (_ && _ && _); [|discriminate]. destruct (s_main s); [discriminate|]. assert (s' = set_main true s) as -> by congruence. split; assumption.
Qed.
Lemma reach_staffed p up down s : reaches nstep (ninit p up down) s -> staffed up down s.
Proof. intro R. eapply (invariant nstep (staffed up down)); [|intros a x y; apply staffed_step|exact R]. split; cbn; [destruct up|destruct down]; split; congruence. Qed.
(** When it returns without an error everything is finished. *)
Definition finished (s : nst) : Prop := s_main s = Some true -> idle (s_up s) = true /\ idle (s_down s) = true /\ forallb (fun b => negb (b_on b)) (s_batches s) = true.
Lemma finished_step a s s' : finished s -> nstep a s = Some s' -> finished s'.
Proof.
  intros F H M. unfold nstep in H. destruct (s_crashed s); [discriminate|]. destruct a as [|d|d|d ok|i ok|].
  - destruct (s_prog s) as [|[x|x| |] p]; [discriminate| | | |]; try (destruct (s_closed s)); try (destruct (_ <? cap)); try (destruct (s_main s) eqn:MM); try discriminate; match type of H with Some ?y = _ => assert (s' = y) as -> by congruence end; cbn in M; try discriminate M; try (apply F; assumption); try (rewrite MM in M; discriminate M); apply F; congruence.
  - exfalso. destruct (wk d s) as [|ids seen|ids|] eqn:W; try discriminate. assert (MM : s_main s = Some true). { destruct (queue d s) as [|x q]; [discriminate|]. destruct (existsb (seqb x) seen); [|destruct (length (ids ++ [x]) =? 50)]; match type of H with Some ?y = _ => assert (s' = y) as -> by congruence end; destruct d; exact M. }
    destruct (F MM) as (A & B & _). destruct d; cbn in W; rewrite W in *; discriminate.
  - exfalso. destruct (wk d s) as [|ids seen|ids|] eqn:W; try discriminate. assert (MM : s_main s = Some true). { destruct (queue d s) as [|x q]; [|discriminate]. destruct (s_closed s); [|discriminate]. match type of H with Some ?y = _ => assert (s' = y) as -> by congruence end. destruct d; exact M. }
    destruct (F MM) as (A & B & _). destruct d; cbn in W; rewrite W in *; discriminate.
  - exfalso. destruct (wk d s) as [|ids0 seen|ids|] eqn:W; try discriminate. assert (MM : s_main s = Some true). { destruct ids as [|x l]; (destruct ok; [|first [discriminate H|destruct (s_main s) eqn:Q; [discriminate H|]]]); match type of H with Some ?y = _ => assert (s' = y) as -> by congruence end; destruct d; cbn in M; congruence. }
    destruct (F MM) as (A & B & _). destruct d; cbn in W; rewrite W in *; discriminate.
  - exfalso. destruct (nth_error (s_batches s) i) as [b|] eqn:N; [|discriminate]. destruct (b_on b) eqn:O; [|discriminate]. assert (MM : s_main s = Some true). { destruct ok; [|destruct (s_main s) eqn:Q; [discriminate|]]; match type of H with Some ?y = _ => assert (s' = y) as -> by congruence end; cbn in M; congruence. }
    destruct (F MM) as (_ & _ & A). rewrite forallb_forall in A. apply nth_error_In in N. specialize (A b N). rewrite O in A. discriminate.
  - destruct (idle (s_up s)) eqn:A1; [|discriminate]. destruct (idle (s_down s)) eqn:A2; [|discriminate]. destruct (forallb _ (s_batches s)) eqn:A3; [|discriminate]. cbn [andb] in H. destruct (s_main s) eqn:Q; [discriminate|]. assert (s' = set_main true s) as -> by congruence. cbn. auto.
Qed.
(** Success means that every id that should go a way was asked for, and every batch is through. *)
Theorem C101_complete p up down s d : orderly p -> reaches nstep (ninit p up down) s -> s_main s = Some true -> on d up down = true ->
  (forall x, In x (asked d (s_batches s)) <-> In x (wanted d p)) /\ forallb (fun b => negb (b_on b)) (s_batches s) = true.
Proof.
  intros O R M ON. assert (FI : finished s) by (eapply (invariant nstep finished); [|intros a x y; apply finished_step|exact R]; intro Q; discriminate Q). destruct (FI M) as (A1 & A2 & A3). split; [|exact A3].
  assert (W : wk d s = W_done). { destruct (reach_staffed _ _ _ _ R) as [U D]. destruct d; cbn in *; [apply U in ON; destruct (s_up s); cbn in A1; congruence|apply D in ON; destruct (s_down s); cbn in A2; congruence]. }
  destruct (reach_inv _ _ _ _ R) as (I1 & I2 & _). assert (D : side_inv d p s) by (destruct d; assumption). destruct D as (tk & E & D). rewrite W in D. destruct D as (Q & C & [_ HT]). destruct (reach_flow _ _ _ _ O R) as [_ [[C' _]|[P _]]]; [congruence|].
  rewrite Q, P in E. cbn in E. rewrite app_nil_r in E. subst tk. intro x. specialize (HT x). rewrite app_nil_r in HT. exact HT.
Qed.
(** It comes to an end: no run is longer than this, and as long as it has not returned something can run, if each direction is synchronised or its ids fit the channel. *)
Definition wweight (w : worker) : nat := match w with W_run _ _ => 2 | W_last _ => 1 | _ => 0 end.
Definition weight (s : nst) : nat := 4 * length (s_prog s) + 3 * (length (s_have s) + length (s_need s)) + wweight (s_up s) + wweight (s_down s) + length (filter b_on (s_batches s)) + (match s_main s with None => 1 | _ => 0 end) + (if s_crashed s then 0 else 1).
Lemma filter_snoc_on bs d ids o : length (filter b_on (bs ++ [mkBatch d ids o])) = length (filter b_on bs) + (if o then 1 else 0).
Proof. rewrite filter_app, app_length. cbn [filter b_on]. destruct o; reflexivity. Qed.
Lemma filter_upd_off bs i b : nth_error bs i = Some b -> b_on b = true -> S (length (filter b_on (upd bs i (mkBatch (b_side b) (b_ids b) false)))) = length (filter b_on bs).
Proof. revert i. induction bs as [|x bs IH]; intros [|i] H O; cbn [nth_error upd filter] in *; try discriminate. - assert (x = b) as -> by congruence. rewrite O. cbn [b_on]. reflexivity. - destruct (b_on x); cbn [length]; rewrite (IH i H O); reflexivity. Qed.
Lemma weight_step a s s' : nstep a s = Some s' -> weight s' < weight s.
Proof.
  intro H. unfold nstep in H. destruct (s_crashed s) eqn:CR; [discriminate|]. unfold weight at 2. rewrite CR.
  assert (CRW : Some (crash s) = Some s' -> weight s' < 4 * length (s_prog s) + 3 * (length (s_have s) + length (s_need s)) + wweight (s_up s) + wweight (s_down s) + length (filter b_on (s_batches s)) + match s_main s with None => 1 | _ => 0 end + 1) by (intro E; assert (s' = crash s) as -> by congruence; unfold weight; cbn; lia).
  destruct a as [|d|d|d ok|i ok|].
  - destruct (s_prog s) as [|[x|x| |] p] eqn:P; [discriminate| | | |].
    + destruct (s_closed s); [exact (CRW H)|]. destruct (_ <? cap); [|discriminate]. match type of H with Some ?y = _ => assert (s' = y) as -> by congruence end. unfold weight. cbn. rewrite app_length, CR. cbn. lia.
    + destruct (s_closed s); [exact (CRW H)|]. destruct (_ <? cap); [|discriminate]. match type of H with Some ?y = _ => assert (s' = y) as -> by congruence end. unfold weight. cbn. rewrite app_length, CR. cbn. lia.
    + destruct (s_closed s); [exact (CRW H)|]. match type of H with Some ?y = _ => assert (s' = y) as -> by congruence end. unfold weight. cbn. rewrite CR. lia.
    + destruct (s_main s); [discriminate|]. match type of H with Some ?y = _ => assert (s' = y) as -> by congruence end. unfold weight. cbn. rewrite CR. lia.
  - destruct (wk d s) as [|ids seen|ids|] eqn:W; try discriminate. destruct (queue d s) as [|x q] eqn:Q; [discriminate|]. destruct (existsb (seqb x) seen); [|destruct (length (ids ++ [x]) =? 50)]; match type of H with Some ?y = _ => assert (s' = y) as -> by congruence end; unfold weight; destruct d; cbn in W, Q; cbn [set_wk set_queue set_batches s_prog s_have s_need s_up s_down s_batches s_main s_crashed wweight]; rewrite ?filter_snoc_on, ?W, ?Q, ?CR; cbn [length wweight]; lia.
  - destruct (wk d s) as [|ids seen|ids|] eqn:W; try discriminate. destruct (queue d s) as [|x q] eqn:Q; [|discriminate]. destruct (s_closed s); [|discriminate]. match type of H with Some ?y = _ => assert (s' = y) as -> by congruence end. unfold weight. destruct d; cbn in W, Q; cbn [set_wk s_prog s_have s_need s_up s_down s_batches s_main s_crashed wweight]; rewrite ?W, ?CR; cbn [wweight]; lia.
  - destruct (wk d s) as [|ids0 seen|ids|] eqn:W; try discriminate. destruct ids as [|x l]; (destruct ok; [|first [discriminate H|destruct (s_main s) eqn:M; [discriminate H|]]]); match type of H with Some ?y = _ => assert (s' = y) as -> by congruence end; unfold weight; destruct d; cbn in W; cbn [set_wk set_main set_batches s_prog s_have s_need s_up s_down s_batches s_main s_crashed wweight]; rewrite ?filter_snoc_on, ?W, ?CR; cbn [wweight]; lia.
  - destruct (nth_error (s_batches s) i) as [b|] eqn:N; [|discriminate]. destruct (b_on b) eqn:O; [|discriminate]. pose proof (filter_upd_off _ _ _ N O) as FU. destruct ok; [|destruct (s_main s) eqn:M; [discriminate|]]; match type of H with Some ?y = _ => assert (s' = y) as -> by congruence end; unfold weight; cbn [set_main set_batches s_prog s_have s_need s_up s_down s_batches s_main s_crashed]; rewrite ?CR; lia.
  - destruct (_ && _ && _); [|discriminate]. destruct (s_main s); [discriminate|]. assert (s' = set_main true s) as -> by congruence. unfold weight. cbn. rewrite CR. lia.
Qed.
Theorem C101_bounded p up down l s : exec nstep l (ninit p up down) = Some s -> length l <= 4 * length p + 6.
Proof.
  assert (G : forall l s0 s, exec nstep l s0 = Some s -> length l + weight s <= weight s0).
  { induction l0 as [|a l0 IH]; intros s0 s1 H; cbn [exec] in H; [assert (s1 = s0) as -> by congruence; cbn; lia|]. destruct (nstep a s0) as [s2|] eqn:E; [|discriminate]. apply weight_step in E. specialize (IH _ _ H). cbn [length]. lia. }
  intro H. apply G in H. unfold weight at 2 in H. cbn in H. destruct up, down; cbn in H; lia.
Qed.
Lemma has_room (q : list str) : length q < cap -> (length q <? cap) = true.
Proof. apply Nat.ltb_lt. Qed.
Theorem C101_progress_partial p up down s : orderly p -> (forall d, on d up down = true \/ length (wanted d p) <= 64) -> reaches nstep (ninit p up down) s -> s_main s = None -> exists a s', nstep a s = Some s'.
Proof.
  intros O FIT R M. destruct (reach_flow _ _ _ _ O R) as [NC FL]. destruct (reach_inv _ _ _ _ R) as (I1 & I2 & _). destruct (reach_staffed _ _ _ _ R) as [SU SD].
  assert (SI : forall d, side_inv d p s) by (intros []; assumption). assert (ST : forall d, on d up down = true <-> wk d s <> W_off) by (intros []; assumption).
  assert (PUSH : forall d x q, s_closed s = false -> wanted d (s_prog s) = x :: q -> length (queue d s) < cap \/ exists s', nstep (ATake d) s = Some s').
  { intros d x q C P. destruct (SI d) as (tk & E & H). destruct (wk d s) as [|ids seen|ids|] eqn:W.
    - left. destruct H as [-> _]. destruct (FIT d) as [F|F]; [apply ST in F; congruence|]. cbn [app] in E. rewrite E, P, app_length in F. cbn [length] in F. unfold cap. lia.
    - destruct (queue d s) as [|y r] eqn:Q; [left; cbn; unfold cap; lia|right]. unfold nstep. rewrite NC, W, Q. destruct (existsb (seqb y) seen); [eauto|]. destruct (length (ids ++ [y]) =? 50); eauto.
    - destruct H as (_ & H & _). congruence.
    - destruct H as (_ & H & _). congruence. }
  destruct FL as [[C OP]|[P [C|X]]]; [| |congruence].
  - destruct (s_prog s) as [|a pr] eqn:P; [destruct OP as (b & z & E & _); destruct b; discriminate|]. destruct a as [x|x| |].
    + destruct (PUSH Up x (wanted Up pr) C eq_refl) as [L|[s' E]]; [|exists (ATake Up), s'; exact E]. exists AReader. unfold nstep. rewrite NC, P, C. cbn [queue] in L. rewrite (has_room _ L). eauto.
    + destruct (PUSH Down x (wanted Down pr) C eq_refl) as [L|[s' E]]; [|exists (ATake Down), s'; exact E]. exists AReader. unfold nstep. rewrite NC, P, C. cbn [queue] in L. rewrite (has_room _ L). eauto.
    + exists AReader. unfold nstep. rewrite NC, P, C. eauto.
    + exists AReader. unfold nstep. rewrite NC, P, M. eauto.
  - assert (WK : forall d, idle (wk d s) = false -> exists a s', nstep a s = Some s').
    { intros d ID. destruct (wk d s) as [|ids seen|ids|] eqn:W; try discriminate.
      - destruct (queue d s) as [|y r] eqn:Q; [exists (AEnd d); unfold nstep; rewrite NC, W, Q, C; eauto|]. exists (ATake d). unfold nstep. rewrite NC, W, Q. destruct (existsb (seqb y) seen); [eauto|]. destruct (length (ids ++ [y]) =? 50); eauto.
      - exists (ALast d true). unfold nstep. rewrite NC, W. destruct ids; eauto. }
    destruct (idle (s_up s)) eqn:A1; [|exact (WK Up A1)]. destruct (idle (s_down s)) eqn:A2; [|exact (WK Down A2)]. destruct (forallb (fun b => negb (b_on b)) (s_batches s)) eqn:A3.
    + exists AWait. unfold nstep. rewrite NC, A1, A2, A3, M. cbn [andb]. eauto.
    + assert (X : exists i b, nth_error (s_batches s) i = Some b /\ b_on b = true). { clear - A3. induction (s_batches s) as [|b bs IH]; [discriminate|]. cbn [forallb] in A3. destruct (b_on b) eqn:E; [exists 0, b; auto|]. destruct (IH A3) as (i & c & H1 & H2). exists (S i), c. auto. }
      destruct X as (i & b & N & ON). exists (ABatch i true). unfold nstep. rewrite NC, N, ON. eauto.
Qed.
(** False in one direction: with more ids of the other than the channel holds, the reader waits for ever and so does the caller. *)
Definition many (n : nat) : list ract := repeat (RNeed (B "x")) n ++ [RClose].
Theorem C101_one_way_refuted : exists s, orderly (many 65) /\ reaches nstep (ninit (many 65) true false) s /\ s_main s = None /\ forall a, nstep a s = None.
Proof.
  eexists. split; [exists (repeat (RNeed (B "x")) 65), RClose; split; [reflexivity|]; split; [apply Forall_forall; intros y I; apply repeat_spec in I; subst; exact Logic.I|auto]|]. split; [exists (repeat AReader 64); vm_compute; reflexivity|]. split; [reflexivity|].
  intros [|[]|[]|[] []|i ok|]; try reflexivity. destruct i; reflexivity.
Qed.
(** False: nothing is left behind. After an error the workers wait for ever. *)
Theorem C101_leak_refuted : exists s, reaches nstep (ninit [RError] true true) s /\ s_main s = Some false /\ s_up s = W_run [] [] /\ forall a, nstep a s = None.
Proof. eexists. split; [exists [AReader]; vm_compute; reflexivity|]. split; [reflexivity|]. split; [reflexivity|]. intros [|[]|[]|[] []|i ok|]; try reflexivity. destruct i; reflexivity. Qed.
(** False: a relay cannot crash it. One message too many closes the channels again. *)
Theorem C101_crash_refuted : exists s, reaches nstep (ninit [RClose; RClose] true true) s /\ s_crashed s = true.
Proof. eexists. split; [exists [AReader; AReader]; vm_compute; reflexivity|reflexivity]. Qed.
Example C101_applies : exists s, orderly [RHave (B "a"); RNeed (B "b"); RHave (B "a"); RClose] /\ reaches nstep (ninit [RHave (B "a"); RNeed (B "b"); RHave (B "a"); RClose] true true) s /\ s_main s = Some true /\ asked Up (s_batches s) = [B "a"] /\ asked Down (s_batches s) = [B "b"].
Proof.
  eexists. split; [exists [RHave (B "a"); RNeed (B "b"); RHave (B "a")], RClose; split; [reflexivity|]; split; [repeat constructor|auto]|].
  split; [exists [AReader; AReader; AReader; AReader; ATake Up; ATake Up; ATake Down; AEnd Up; AEnd Down; ALast Up true; ALast Down true; AWait]; vm_compute; reflexivity|]. repeat split; reflexivity.
Qed.

(** ** The pool of lists. With giving back in one go no list is out twice. *)
Inductive pool_op := OGrab | OBack (x : nat).
Definition pool_ops (o : pool_op) : list pact := match o with OGrab => [PGrab] | OBack x => [PRead x; PWrite 0] end.
Definition owned (s : pst) : Prop := NoDup (p_pool s ++ p_out s) /\ (forall x, In x (p_pool s ++ p_out s) -> x < p_next s) /\ p_back s = [].
Lemma take_out_perm x l o : take_out x l = Some o -> Permutation (x :: o) l.
Proof. revert o. induction l as [|y l IH]; intros o H; cbn [take_out] in H; [discriminate|]. destruct (Nat.eqb_spec x y) as [->|N]; [assert (o = l) as -> by congruence; reflexivity|]. destruct (take_out x l) as [t|]; [|discriminate]. assert (o = y :: t) as -> by congruence. rewrite perm_swap. rewrite (IH t eq_refl). reflexivity. Qed.
Theorem C101_pool_partial ops s : exec pool_step (flat_map pool_ops ops) pool_init = Some s -> NoDup (p_out s).
Proof.
  assert (G : forall ops s0 s1, owned s0 -> exec pool_step (flat_map pool_ops ops) s0 = Some s1 -> owned s1).
  { clear. induction ops as [|o ops IH]; intros s0 s1 O H; [cbn in H; assert (s1 = s0) as -> by congruence; exact O|]. cbn [flat_map] in H. rewrite exec_app in H. destruct (exec pool_step (pool_ops o) s0) as [s2|] eqn:E; [|discriminate]. apply (IH s2); [|exact H]. clear IH H. destruct O as (ND & LT & BK). destruct s0 as [pool next out back]. cbn [p_pool p_out p_next p_back] in *. subst back. destruct o as [|x]; cbn [pool_ops exec] in E.
    - cbn [pool_step p_pool p_next p_out p_back] in E. destruct (rev pool) as [|x r] eqn:RV.
      + assert (s2 = mkPst [] (S next) (next :: out) []) as -> by congruence. assert (pool = []) as -> by (rewrite <- (rev_involutive pool), RV; reflexivity). cbn [app] in *. split; [constructor; [intro I; specialize (LT _ I); lia|exact ND]|]. split; [|reflexivity]. cbn [p_next]. intros y [<-|I]; [lia|]. specialize (LT _ I). lia.
      + assert (s2 = mkPst (rev r) next (x :: out) []) as -> by congruence. assert (PE : pool = rev r ++ [x]) by (rewrite <- (rev_involutive pool), RV; reflexivity). subst pool. rewrite <- app_assoc in ND, LT. split; [exact ND|]. split; [exact LT|reflexivity].
    - cbn [pool_step p_pool p_next p_out p_back] in E. destruct (take_out x out) as [o|] eqn:T; [|discriminate]. cbn [exec pool_step p_back nth_error app] in E. cbn [p_next p_out p_back firstn skipn app] in E. assert (s2 = mkPst (pool ++ [x]) next o []) as -> by congruence. apply take_out_perm in T.
      assert (PP : Permutation ((pool ++ [x]) ++ o) (pool ++ out)) by (rewrite <- app_assoc; apply Permutation_app_head; exact T). split; [apply (Permutation_NoDup (Permutation_sym PP)), ND|]. split; [|reflexivity]. intros y I. apply LT. apply (Permutation_in _ PP), I. }
  intro H. apply G in H; [|split; [repeat constructor; intros []|split; [intros y [<-|[]]; cbn; lia|reflexivity]]]. destruct H as [ND _]. clear - ND. induction (p_pool s) as [|x l IH]; [exact ND|]. cbn [app] in ND. inversion ND; auto.
Qed.
(** False as it is: a list that is grabbed while another is given back is handed out again. *)
Theorem C101_pool_refuted : exists s, reaches pool_step pool_init s /\ ~ NoDup (p_out s).
Proof.
  eexists. split; [exists [PGrab; PGrab; PRead 0; PWrite 0; PRead 1; PGrab; PWrite 0; PGrab; PGrab]; vm_compute; reflexivity|]. cbn [p_out]. intro N. inversion N as [|? ? N1 _]; subst. apply N1. cbn. auto.
Qed.

(** ** Only the ids: the caller gets what reconciliation named, in order, and all of it when the channel is closed. *)
Theorem C101_ids p l s : exec fstep l (finit p) = Some s -> exists rest, wanted Down p = f_got s ++ f_need s ++ rest /\ (orderly p -> f_done s = true -> f_got s = wanted Down p).
Proof.
  assert (G : forall l s0 s1, (wanted Down p = f_got s0 ++ f_need s0 ++ wanted Down (f_prog s0) /\ (f_done s0 = true -> f_need s0 = [] /\ f_closed s0 = true) /\ (orderly p -> (f_closed s0 = false /\ orderly (f_prog s0)) \/ f_prog s0 = [])) -> exec fstep l s0 = Some s1 ->
    (wanted Down p = f_got s1 ++ f_need s1 ++ wanted Down (f_prog s1) /\ (f_done s1 = true -> f_need s1 = [] /\ f_closed s1 = true) /\ (orderly p -> (f_closed s1 = false /\ orderly (f_prog s1)) \/ f_prog s1 = []))).
  { clear. induction l as [|a l IH]; intros s0 s1 H E; cbn [exec] in E; [assert (s1 = s0) as -> by congruence; exact H|]. destruct (fstep a s0) as [s2|] eqn:ST; [|discriminate]. apply (IH s2); [|exact E]. clear IH E. destruct H as (W & D & OR). unfold fstep in ST. destruct (f_crashed s0); [discriminate|]. destruct a.
    - destruct (f_prog s0) as [|[x|x| |] q] eqn:P; try discriminate.
      + destruct (f_closed s0) eqn:C; [assert (s2 = mkF (RNeed x :: q) (f_need s0) true (f_got s0) (f_done s0) true) as -> by congruence; auto|]. destruct (_ <? cap); [|discriminate]. assert (s2 = mkF q (f_need s0 ++ [x]) false (f_got s0) (f_done s0) false) as -> by congruence. cbn [f_prog f_need f_closed f_got f_done]. split; [rewrite W; rewrite <- app_assoc; reflexivity|]. split; [intro Q; destruct (D Q); congruence|]. intro O. destruct (OR O) as [[_ OP]|OP]; [|discriminate]. left. split; [reflexivity|]. exact (orderly_tail (RNeed x) q I OP).
      + destruct (f_closed s0) eqn:C; [assert (s2 = mkF (RClose :: q) (f_need s0) true (f_got s0) (f_done s0) true) as -> by congruence; auto|]. assert (s2 = mkF q (f_need s0) true (f_got s0) (f_done s0) false) as -> by congruence. cbn [f_prog f_need f_closed f_got f_done]. split; [exact W|]. split; [intro Q; destruct (D Q); congruence|]. intro O. destruct (OR O) as [[_ OP]|OP]; [|discriminate]. right. exact (orderly_last RClose q (fun x => x) OP).
    - destruct (f_need s0) as [|x q] eqn:N.
      + destruct (f_closed s0) eqn:C; [|discriminate]. destruct (f_done s0) eqn:DN; [discriminate|]. cbn [negb andb] in ST. assert (s2 = mkF (f_prog s0) [] true (f_got s0) true false) as -> by congruence. cbn [f_prog f_need f_closed f_got f_done]. auto.
      + assert (s2 = mkF (f_prog s0) q (f_closed s0) (f_got s0 ++ [x]) (f_done s0) false) as -> by congruence. cbn [f_prog f_need f_closed f_got f_done]. split; [rewrite W, <- app_assoc; reflexivity|]. split; [intro Q; destruct (D Q); discriminate|exact OR]. }
  intro H. apply G in H; [|split; [reflexivity|split; [discriminate|auto]]]. destruct H as (W & D & OR). exists (wanted Down (f_prog s)). split; [exact W|]. intros O DN. destruct (D DN) as [N C]. destruct (OR O) as [[C' _]|P]; [congruence|]. rewrite N, P in W. cbn in W. rewrite app_nil_r in W. congruence.
Qed.
(** When the relay names ids and then ends: nothing crashes, and until the channel is closed something can go on. *)
Theorem C101_ids_go_on body l s : Forall (fun a => match a with RNeed _ => True | _ => False end) body -> exec fstep l (finit (body ++ [RClose])) = Some s ->
  f_crashed s = false /\ (f_done s = true \/ exists a s', fstep a s = Some s').
Proof.
  intros FB H. set (inv := fun s => f_crashed s = false /\ ((f_closed s = false /\ f_done s = false /\ exists q, f_prog s = q ++ [RClose] /\ Forall (fun a => match a with RNeed _ => True | _ => False end) q) \/ (f_closed s = true /\ f_prog s = []))).
  assert (K : inv s).
  { refine (invariant fstep inv _ _ _ s _); [| |exists l; exact H].
    - split; [reflexivity|]. left. split; [reflexivity|]. split; [reflexivity|]. exists body. split; [reflexivity|exact FB].
    - clear. intros a [pr nd cl gt dn cr] s' [C D] ST. cbn [f_crashed f_closed f_done f_prog] in C, D. subst cr. unfold fstep in ST. cbn [f_crashed f_closed f_done f_prog f_need f_got] in ST. destruct a.
      + destruct D as [(-> & -> & q & -> & F)|[-> ->]]; [|discriminate]. destruct q as [|x q]; cbn [app] in ST.
        * assert (s' = mkF [] nd true gt false false) as -> by congruence. split; [reflexivity|]. right. split; reflexivity.
        * inversion F as [|? ? F1 F2]; subst. destruct x; try destruct F1. destruct (length nd <? cap); [|discriminate]. match type of ST with Some ?y = _ => assert (s' = y) as -> by congruence end. split; [reflexivity|]. left. split; [reflexivity|]. split; [reflexivity|]. exists q. split; [reflexivity|exact F2].
      + destruct nd as [|x nd].
        * destruct (cl && negb dn) eqn:Q; [|discriminate]. apply andb_prop in Q. destruct Q as [-> _]. match type of ST with Some ?y = _ => assert (s' = y) as -> by congruence end. split; [reflexivity|]. destruct D as [(X & _)|D]; [discriminate X|]. right. exact D.
        * match type of ST with Some ?y = _ => assert (s' = y) as -> by congruence end. split; [reflexivity|]. exact D. }
  destruct K as [C D]. split; [exact C|]. destruct s as [pr nd cl gt dn cr]. cbn [f_crashed f_closed f_done f_prog] in *. subst cr. destruct nd as [|x nd].
  - destruct D as [(-> & -> & q & -> & F)|[-> ->]].
    + right. exists FReader. destruct q as [|x q]; [eexists; reflexivity|]. inversion F as [|? ? F1 F2]; subst. destruct x; try destruct F1. eexists. reflexivity.
    + destruct dn; [left; reflexivity|]. right. exists FForward. eexists. reflexivity.
  - right. exists FForward. eexists. reflexivity.
Qed.
(** False: the channel that is returned is closed in the end. It is not when the relay answers with an error. *)
Theorem C101_ids_hang_refuted : exists p, orderly p /\ forall l s, exec fstep l (finit p) = Some s -> f_done s = false.
Proof.
  exists [RError]. split; [exists [], RError; split; [reflexivity|]; split; [constructor|auto]|].
  intros [|[] l] s H; cbn in H; [assert (s = finit [RError]) as -> by congruence; reflexivity|discriminate|discriminate].
Qed.
Example C101_ids_applies : exists s, exec fstep [FReader; FReader; FForward; FForward; FReader; FForward] (finit [RNeed (B "a"); RNeed (B "b"); RClose]) = Some s /\ f_done s = true /\ f_got s = [B "a"; B "b"].
Proof. eexists. split; [vm_compute; reflexivity|]. split; reflexivity. Qed.

Print Assumptions C101_once.
Print Assumptions C101_complete.
Print Assumptions C101_bounded.
Print Assumptions C101_progress_partial.
Print Assumptions C101_one_way_refuted.
Print Assumptions C101_leak_refuted.
Print Assumptions C101_crash_refuted.
Print Assumptions C101_pool_partial.
Print Assumptions C101_pool_refuted.
Print Assumptions C101_ids.
Print Assumptions C101_ids_hang_refuted.

Print Assumptions C101_ids_go_on.
