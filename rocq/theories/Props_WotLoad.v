(** C118: who is in a web of trust. *)
From Coq Require Import Permutation.
From Verif Require Import Base Machine WotModel WotLoadModel.
Import ListNotations.
Open Scope nat_scope.

(** * Collecting the keys *)
Notation reached follows s := (reaches lw_step (lw_init follows) s).
(** A goroutine that has not called wg.Done. *)
Definition unfinished (w : worker) : bool := match k_at w with KDone | KGone => false | _ => true end.
Definition owed (w : worker) : list str := match k_at w with KSelf => [k_key w] | KList r => r | _ => [] end.
Definition whole (w : worker) : list str := k_key w :: k_list w.
Definition pending (f : first) : list str := match f with FLoop r => r | FGo k r => k :: r | FEnd => [] end.
Definition holds_wg (f : first) : Z := match f with FLoop _ => 1 | FGo _ _ => 2 | FEnd => 0 end%Z.
Definition linv (follows : list str) (s : lw) : Prop :=
  lw_bad s = false /\ lw_wg s = (holds_wg (lw_first s) + Z.of_nat (cnt unfinished (lw_workers s)))%Z /\ (lw_closed s = true -> lw_wg s = 0%Z) /\ cnt busy (lw_workers s) <= 45 /\
  map k_key (lw_workers s) ++ pending (lw_first s) = follows /\ (forall w, In w (lw_workers s) -> k_at w = KSelf \/ k_at w = KLoad -> k_list w = []) /\
  Permutation (lw_got s ++ flat_map owed (lw_workers s)) (flat_map whole (lw_workers s)).
Lemma flat_upd {X Y} (f : X -> list Y) l i x y : nth_error l i = Some y -> Permutation (flat_map f (upd l i x) ++ f y) (flat_map f l ++ f x).
Proof.
  revert i. induction l as [|z l IH]; intros [|i] H; try discriminate; cbn [upd flat_map nth_error] in *.
  - injection H as ->. rewrite (Permutation_app_comm (f y ++ flat_map f l) (f x)). rewrite <- !app_assoc. apply Permutation_app_head. apply Permutation_app_comm.
  - rewrite <- !app_assoc. apply Permutation_app_head. apply IH. exact H.
Qed.
Lemma map_upd {X Y} (f : X -> Y) l i x y : nth_error l i = Some y -> f x = f y -> map f (upd l i x) = map f l.
Proof. revert i. induction l as [|z l IH]; intros [|i] H E; try discriminate; cbn [upd map nth_error] in *; [injection H as ->; congruence|]. f_equal. apply IH; assumption. Qed.
Lemma in_upd {X} (l : list X) i x z : In z (upd l i x) -> z = x \/ In z l.
Proof. revert i. induction l as [|y l IH]; intros [|i] H; cbn in *; try tauto; [destruct H as [H|H]; auto|]. destruct H as [H|H]; [auto|]. destruct (IH i H); auto. Qed.
Lemma unfinished_busy l : cnt unfinished l <= cnt busy l.
Proof. induction l as [|w l IH]; cbn [cnt]; [lia|]. unfold unfinished at 1, busy at 1. destruct (k_at w); lia. Qed.
(** Counting is [Permutation] enough when one element goes from owed to got. *)
Lemma linv_step follows a s s' : linv follows s -> lw_step a s = Some s' -> linv follows s'.
Proof.
  intros (IB & IW & IC & IL & IK & IE & IP) H. unfold lw_step in H. rewrite IB in H.
  destruct a as [| | |i|i l|i|i|].
  - destruct (lw_first s) as [[|k r]| |] eqn:EF; try discriminate. injection H as <-. unfold linv. cbn [lw_bad lw_wg lw_first lw_workers lw_closed lw_got]. repeat split; try assumption; cbn [holds_wg pending] in *; try lia.
  - destruct (lw_first s) as [|k r|] eqn:EF; try discriminate. destruct (Nat.ltb_spec (cnt busy (lw_workers s)) group_limit) as [LT|]; [|discriminate]. injection H as <-. unfold linv. cbn [lw_bad lw_wg lw_first lw_workers lw_closed lw_got] in *. rewrite !cnt_app, map_app, !flat_map_app. cbn [cnt map flat_map app unfinished busy k_at owed whole k_key k_list holds_wg pending] in *.
    repeat split; try assumption; try lia.
    + unfold group_limit in LT. lia.
    + rewrite <- app_assoc. exact IK.
    + intros w HW. apply in_app_iff in HW. destruct HW as [HW|[<-|[]]]; [apply IE; exact HW|reflexivity].
    + rewrite app_assoc. apply Permutation_app_tail. exact IP.
  - destruct (lw_first s) as [[|k r]| |] eqn:EF; try discriminate. injection H as <-. unfold linv. cbn [lw_bad lw_wg lw_first lw_workers lw_closed lw_got holds_wg pending] in *. unfold wg_done. repeat split; try assumption; try lia.
  - destruct (nth_error (lw_workers s) i) as [[k l [| |[|x r]| |]]|] eqn:EN; try discriminate.
    + assert (NC : lw_closed s = false). { destruct (lw_closed s) eqn:C; [|reflexivity]. specialize (IC eq_refl). pose proof (cnt_pos unfinished _ _ _ EN eq_refl). destruct (lw_first s); cbn [holds_wg] in IW; lia. }
      unfold send_on in H. rewrite NC in H. injection H as <-. unfold linv. cbn [lw_bad lw_wg lw_first lw_workers lw_closed lw_got].
      pose proof (cnt_upd unfinished _ _ (mkWk k l KLoad) _ EN) as CU. pose proof (cnt_upd busy _ _ (mkWk k l KLoad) _ EN) as CB. cbn [unfinished busy k_at] in CU, CB.
      repeat split; try assumption; try lia; try discriminate.
      * erewrite map_upd; [exact IK|exact EN|reflexivity].
      * intros w HW. apply in_upd in HW. destruct HW as [->|HW]; [|apply IE; exact HW]. intros _. apply (IE _ (nth_error_In _ _ EN)). left. reflexivity.
      * pose proof (flat_upd owed _ _ (mkWk k l KLoad) _ EN) as P1. pose proof (flat_upd whole _ _ (mkWk k l KLoad) _ EN) as P2. cbn [owed k_at k_key whole k_list] in P1, P2. apply Permutation_app_inv_r in P2. rewrite P2, <- IP. rewrite app_nil_r in P1. rewrite <- P1. rewrite <- app_assoc. apply Permutation_app_head. cbn. rewrite <- Permutation_cons_append. reflexivity.
    + assert (NC : lw_closed s = false). { destruct (lw_closed s) eqn:C; [|reflexivity]. specialize (IC eq_refl). pose proof (cnt_pos unfinished _ _ _ EN eq_refl). destruct (lw_first s); cbn [holds_wg] in IW; lia. }
      unfold send_on in H. rewrite NC in H. injection H as <-. unfold linv. cbn [lw_bad lw_wg lw_first lw_workers lw_closed lw_got].
      pose proof (cnt_upd unfinished _ _ (mkWk k l (KList r)) _ EN) as CU. pose proof (cnt_upd busy _ _ (mkWk k l (KList r)) _ EN) as CB. cbn [unfinished busy k_at] in CU, CB.
      repeat split; try assumption; try lia; try discriminate.
      * erewrite map_upd; [exact IK|exact EN|reflexivity].
      * intros w HW. apply in_upd in HW. destruct HW as [->|HW]; [|apply IE; exact HW]. cbn. intros [Q|Q]; discriminate.
      * pose proof (flat_upd owed _ _ (mkWk k l (KList r)) _ EN) as P1. pose proof (flat_upd whole _ _ (mkWk k l (KList r)) _ EN) as P2. cbn [owed k_at k_key whole k_list] in P1, P2. apply Permutation_app_inv_r in P2. rewrite P2, <- IP.
        assert (P3 : Permutation (x :: flat_map owed (upd (lw_workers s) i (mkWk k l (KList r)))) (flat_map owed (lw_workers s))). { apply (Permutation_app_inv_r r). rewrite <- P1. cbn. rewrite <- Permutation_middle. reflexivity. }
        rewrite <- P3, <- app_assoc. reflexivity.
  - destruct (nth_error (lw_workers s) i) as [[k l' [| |r| |]]|] eqn:EN; try discriminate. injection H as <-. unfold linv. cbn [lw_bad lw_wg lw_first lw_workers lw_closed lw_got].
    pose proof (cnt_upd unfinished _ _ (mkWk k l (KList l)) _ EN) as CU. pose proof (cnt_upd busy _ _ (mkWk k l (KList l)) _ EN) as CB. cbn [unfinished busy k_at] in CU, CB.
    assert (l' = []) as -> by (apply (IE _ (nth_error_In _ _ EN)); right; reflexivity).
    repeat split; try assumption; try lia.
    + erewrite map_upd; [exact IK|exact EN|reflexivity].
    + intros w HW. apply in_upd in HW. destruct HW as [->|HW]; [|apply IE; exact HW]. cbn. intros [Q|Q]; discriminate.
    + pose proof (flat_upd owed _ _ (mkWk k l (KList l)) _ EN) as P1. pose proof (flat_upd whole _ _ (mkWk k l (KList l)) _ EN) as P2. cbn [owed k_at k_key whole k_list] in P1, P2. rewrite app_nil_r in P1.
      assert (P3 : Permutation (flat_map whole (upd (lw_workers s) i (mkWk k l (KList l)))) (flat_map whole (lw_workers s) ++ l)). { apply (Permutation_app_inv_r [k]). rewrite P2. rewrite <- app_assoc. apply Permutation_app_head. apply Permutation_cons_append. }
      rewrite P3, P1, app_assoc. apply Permutation_app_tail. exact IP.
  - destruct (nth_error (lw_workers s) i) as [[k l [| |[|x r]| |]]|] eqn:EN; try discriminate. injection H as <-. unfold linv. cbn [lw_bad lw_wg lw_first lw_workers lw_closed lw_got].
    pose proof (cnt_upd unfinished _ _ (mkWk k l KDone) _ EN) as CU. pose proof (cnt_upd busy _ _ (mkWk k l KDone) _ EN) as CB. cbn [unfinished busy k_at] in CU, CB. pose proof (cnt_pos unfinished _ _ _ EN eq_refl) as CP. unfold wg_done.
    assert (0 <= holds_wg (lw_first s))%Z by (destruct (lw_first s); cbn; lia).
    repeat split; try assumption; try lia.
    + erewrite map_upd; [exact IK|exact EN|reflexivity].
    + intros w HW. apply in_upd in HW. destruct HW as [->|HW]; [|apply IE; exact HW]. cbn. intros [Q|Q]; discriminate.
    + pose proof (flat_upd owed _ _ (mkWk k l KDone) _ EN) as P1. pose proof (flat_upd whole _ _ (mkWk k l KDone) _ EN) as P2. cbn [owed k_at k_key whole k_list] in P1, P2. apply Permutation_app_inv_r in P2. rewrite !app_nil_r in P1. rewrite P1, P2. exact IP.
  - destruct (nth_error (lw_workers s) i) as [[k l [| |r| |]]|] eqn:EN; try discriminate. injection H as <-. unfold linv. cbn [lw_bad lw_wg lw_first lw_workers lw_closed lw_got].
    pose proof (cnt_upd unfinished _ _ (mkWk k l KGone) _ EN) as CU. pose proof (cnt_upd busy _ _ (mkWk k l KGone) _ EN) as CB. cbn [unfinished busy k_at] in CU, CB.
    repeat split; try assumption; try lia.
    + erewrite map_upd; [exact IK|exact EN|reflexivity].
    + intros w HW. apply in_upd in HW. destruct HW as [->|HW]; [|apply IE; exact HW]. cbn. intros [Q|Q]; discriminate.
    + pose proof (flat_upd owed _ _ (mkWk k l KGone) _ EN) as P1. pose proof (flat_upd whole _ _ (mkWk k l KGone) _ EN) as P2. cbn [owed k_at k_key whole k_list] in P1, P2. apply Permutation_app_inv_r in P2. rewrite !app_nil_r in P1. rewrite P1, P2. exact IP.
  - destruct (lw_wg s =? 0)%Z eqn:EZ; [|discriminate]. destruct (lw_closed s) eqn:EC; [discriminate|]. cbn [negb andb] in H. injection H as <-. unfold linv. cbn [lw_bad lw_wg lw_first lw_workers lw_closed lw_got]. repeat split; try assumption. intros _. lia.
Qed.
Lemma linv_init follows : linv follows (lw_init follows).
Proof. unfold linv, lw_init. cbn. repeat split; try lia; try discriminate; try constructor. Qed.
Lemma linv_reached follows s : reached follows s -> linv follows s.
Proof. apply invariant; [apply linv_init|]. intros a x x' HI HS. exact (linv_step follows a x x' HI HS). Qed.

(** Nothing is sent on the closed channel, it is closed once, the counter never goes below zero, and no more than 45 lists are loaded at the same time. *)
Theorem C118_no_crash follows s : reached follows s -> lw_bad s = false /\ (0 <= lw_wg s)%Z /\ cnt busy (lw_workers s) <= 45.
Proof. intro H. apply linv_reached in H. destruct H as (A & W & _ & L & _). repeat split; try assumption. destruct (lw_first s); cbn [holds_wg] in W; lia. Qed.
Theorem C118_closed_once follows s s' : reached follows s -> lw_closed s = true -> lw_step AClose s <> Some s'.
Proof. intros H C E. unfold lw_step in E. destruct (lw_bad s); [discriminate|]. rewrite C in E. destruct (lw_wg s =? 0)%Z; discriminate. Qed.
(** When the channel is closed, everybody the user follows had their own goroutine, and the reader has got each of them and everybody on each list that was loaded, as often as they are there. *)
Definition circle (s : lw) : list str := flat_map (fun w => k_key w :: k_list w) (lw_workers s).
Theorem C118_complete follows s : reached follows s -> lw_closed s = true -> map k_key (lw_workers s) = follows /\ Permutation (lw_got s) (circle s) /\
  forall pk, In pk (lw_got s) <-> In pk follows \/ exists w, In w (lw_workers s) /\ In pk (k_list w).
Proof.
  intros H C. apply linv_reached in H. destruct H as (_ & W & HC & _ & K & _ & P). specialize (HC C). assert (F : lw_first s = FEnd) by (destruct (lw_first s); cbn [holds_wg] in W; [lia|lia|reflexivity]). rewrite F in *. cbn [pending holds_wg] in *. rewrite app_nil_r in K.
  assert (O : flat_map owed (lw_workers s) = []). { assert (Z0 : cnt unfinished (lw_workers s) = 0) by lia. pose proof (cnt_zero _ _ Z0) as Q. induction (lw_workers s) as [|w l IH]; [reflexivity|]. cbn [flat_map].
    assert (owed w = []) as ->. { specialize (Q w (or_introl eq_refl)). unfold unfinished in Q. unfold owed. destruct (k_at w); try discriminate; reflexivity. }
    clear -Q. cbn [app]. induction l as [|x l IH]; [reflexivity|]. cbn [flat_map]. assert (owed x = []) as ->. { specialize (Q x (or_intror (or_introl eq_refl))). unfold unfinished in Q. unfold owed. destruct (k_at x); try discriminate; reflexivity. } apply IH. intros y Y. apply Q. destruct Y as [->|Y]; [left; reflexivity|right; right; exact Y]. }
  rewrite O, app_nil_r in P. split; [exact K|]. split; [exact P|]. intro pk. split.
  - intro I1. apply (Permutation_in _ P) in I1. apply in_flat_map in I1. destruct I1 as (w & W1 & [W2|W2]); [left; rewrite <- K, <- W2; apply in_map; exact W1|right; exists w; auto].
  - intro I1. apply (Permutation_in _ (Permutation_sym P)). apply in_flat_map. destruct I1 as [I1|(w & W1 & W2)]; [rewrite <- K in I1; apply in_map_iff in I1; destruct I1 as (w & W1 & W2); exists w; split; [exact W2|left; exact W1]|exists w; split; [exact W1|right; exact W2]].
Qed.
(** It always goes on until the channel is closed and all goroutines are gone... *)
Theorem C118_goes_on follows s : reached follows s -> (lw_closed s = true /\ forall w, In w (lw_workers s) -> k_at w = KGone) \/ exists a s', lw_step a s = Some s'.
Proof.
  intro H. pose proof (linv_reached _ _ H) as (IB & IW & IC & IL & _). 
  destruct (cnt busy (lw_workers s)) as [|n] eqn:EB.
  - destruct (lw_closed s) eqn:EC.
    + left. split; [reflexivity|]. intros w HW. pose proof (cnt_zero _ _ EB w HW) as Q. unfold busy in Q. destruct (k_at w); try discriminate. reflexivity.
    + right. unfold lw_step. rewrite IB. destruct (lw_first s) as [[|k r]|k r|] eqn:EF.
      * exists AEnd. rewrite ?EF. eexists; reflexivity.
      * exists AAdd. rewrite ?EF. eexists; reflexivity.
      * exists AGo. rewrite ?EF, EB. eexists; reflexivity.
      * exists AClose. pose proof (unfinished_busy (lw_workers s)). cbn [holds_wg] in IW. assert (lw_wg s = 0%Z) as -> by lia. rewrite ?EC. cbn. eexists; reflexivity.
  - right. assert (X : exists i w, nth_error (lw_workers s) i = Some w /\ busy w = true).
    { clear -EB. revert n EB. induction (lw_workers s) as [|w l IH]; intros n EB; [discriminate|]. cbn [cnt] in EB. destruct (busy w) eqn:E; [exists 0, w; auto|]. destruct (IH n EB) as (i & x & X1 & X2). exists (S i), x. auto. }
    destruct X as (i & [k l ph] & X1 & X2). unfold lw_step. rewrite IB. destruct ph as [| |[|x r]| |].
    + exists (ASend i). rewrite X1. eexists; reflexivity.
    + exists (ALoad i []). rewrite X1. eexists; reflexivity.
    + exists (ADone i). rewrite X1. eexists; reflexivity.
    + exists (ASend i). rewrite X1. eexists; reflexivity.
    + exists (ARet i). rewrite X1. eexists; reflexivity.
    + discriminate.
Qed.
(** ... after a number of steps that depends only on how many are followed and how long the lists are. *)
Definition cost (w : worker) : nat := match k_at w with KSelf => 4 | KLoad => 3 | KList r => 2 + length r | KDone => 1 | KGone => 0 end.
Definition fcost (n : nat) (f : first) : nat := match f with FLoop r => 1 + (6 + n) * length r | FGo _ r => 5 + n + 1 + (6 + n) * length r | FEnd => 0 end.
Definition lcost (n : nat) (s : lw) : nat := fcost n (lw_first s) + c_total (fun w => cost w + match k_at w with KSelf | KLoad => n | _ => 0 end) (lw_workers s) + (if lw_closed s then 0 else 1).
Theorem C118_ends follows n acts s : (forall i l, In (ALoad i l) acts -> length l <= n) -> exec lw_step acts (lw_init follows) = Some s -> length acts <= 2 + (6 + n) * length follows.
Proof.
  assert (G : forall acts s0 s, linv follows s0 -> (forall i l, In (ALoad i l) acts -> length l <= n) -> exec lw_step acts s0 = Some s -> length acts + lcost n s <= lcost n s0).
  { clear. induction acts as [|a acts IH]; intros s0 s HI HL HX; cbn [exec] in HX; [assert (s0 = s) as -> by congruence; cbn; lia|]. destruct (lw_step a s0) as [s1|] eqn:E; [|discriminate].
    specialize (IH s1 s (linv_step _ _ _ _ HI E) (fun i l Q => HL i l (or_intror Q)) HX). enough (1 + lcost n s1 <= lcost n s0) by (cbn [length]; lia). clear IH HX.
    destruct (linv_step _ _ _ _ HI E) as (HB' & _). destruct HI as (HB & _). unfold lw_step in E. rewrite HB in E. unfold lcost.
    destruct a as [| | |i|i l|i|i|].
    - destruct (lw_first s0) as [[|k r]| |] eqn:EF; try discriminate. injection E as <-. cbn [lw_first lw_workers lw_closed fcost length]. nia.
    - destruct (lw_first s0) as [|k r|] eqn:EF; try discriminate. destruct (Nat.ltb _ _); [|discriminate]. injection E as <-. cbn [lw_first lw_workers lw_closed fcost length]. unfold c_total. rewrite fold_right_app. cbn [fold_right cost k_at].
      assert (Q : forall f (l : list worker) z, fold_right (fun x m => f x + m) z l = fold_right (fun x m => f x + m) 0 l + z). { intros f l z. induction l as [|x l IHl]; cbn; [reflexivity|]. rewrite IHl. lia. } rewrite Q. nia.
    - destruct (lw_first s0) as [[|k r]| |] eqn:EF; try discriminate. injection E as <-. cbn [lw_first lw_workers lw_closed fcost length]. lia.
    - destruct (nth_error (lw_workers s0) i) as [[k l [| |[|x r]| |]]|] eqn:EN; try discriminate; unfold send_on in E; destruct (lw_closed s0); injection E as <-; try discriminate; cbn [lw_first lw_workers lw_closed].
      + pose proof (c_total_upd (fun w => cost w + match k_at w with KSelf | KLoad => n | _ => 0 end) _ _ (mkWk k l KLoad) _ EN) as Q. cbn [cost k_at] in Q. lia.
      + pose proof (c_total_upd (fun w => cost w + match k_at w with KSelf | KLoad => n | _ => 0 end) _ _ (mkWk k l (KList r)) _ EN) as Q. cbn [cost k_at length] in Q. lia.
    - destruct (nth_error (lw_workers s0) i) as [[k l' [| |r| |]]|] eqn:EN; try discriminate. injection E as <-. cbn [lw_first lw_workers lw_closed].
      pose proof (c_total_upd (fun w => cost w + match k_at w with KSelf | KLoad => n | _ => 0 end) _ _ (mkWk k l (KList l)) _ EN) as Q. cbn [cost k_at length] in Q. specialize (HL i l (or_introl eq_refl)). lia.
    - destruct (nth_error (lw_workers s0) i) as [[k l [| |[|x r]| |]]|] eqn:EN; try discriminate. injection E as <-. cbn [lw_first lw_workers lw_closed].
      pose proof (c_total_upd (fun w => cost w + match k_at w with KSelf | KLoad => n | _ => 0 end) _ _ (mkWk k l KDone) _ EN) as Q. cbn [cost k_at length] in Q. lia.
    - destruct (nth_error (lw_workers s0) i) as [[k l [| |r| |]]|] eqn:EN; try discriminate. injection E as <-. cbn [lw_first lw_workers lw_closed].
      pose proof (c_total_upd (fun w => cost w + match k_at w with KSelf | KLoad => n | _ => 0 end) _ _ (mkWk k l KGone) _ EN) as Q. cbn [cost k_at length] in Q. lia.
    - destruct (lw_wg s0 =? 0)%Z; [|discriminate]. destruct (lw_closed s0); [discriminate|]. cbn [negb andb] in E. injection E as <-. cbn [lw_first lw_workers lw_closed]. lia. }
  intros HL HX. pose proof (G acts (lw_init follows) s (linv_init follows) HL HX) as Q. unfold lcost at 2, lw_init in Q. cbn [lw_first lw_workers lw_closed fcost c_total fold_right] in Q. lia.
Qed.
Definition two_acts : list lact := [AAdd; AGo; AAdd; ASend 0; AGo; ALoad 0 [B "c"; B "b"]; ASend 1; ASend 0; ALoad 1 [B "a"]; AEnd; ASend 0; ADone 0; ASend 1; ADone 1; AClose; ARet 1; ARet 0].
Example C118_run : option_map (fun s => (lw_closed s, lw_got s, map k_at (lw_workers s))) (exec lw_step two_acts (lw_init [B "a"; B "b"])) = Some (true, [B "a"; B "b"; B "c"; B "b"; B "a"], [KGone; KGone]) /\ length two_acts = 17.
Proof. vm_compute. split; reflexivity. Qed.
(** Somebody who follows nobody: the channel is closed with nothing in it; the user is not in their own circle either. *)
Theorem C118_nobody s : reached [] s -> lw_got s = [] /\ lw_workers s = [].
Proof.
  intro H. apply linv_reached in H. destruct H as (_ & _ & _ & _ & K & _ & P). apply app_eq_nil in K. destruct K as [K _]. apply map_eq_nil in K. rewrite K in *. cbn [flat_map] in P. rewrite app_nil_r in P. apply Permutation_sym, Permutation_nil in P. split; [exact P|reflexivity].
Qed.

(** * The filter *)
Lemma shids_spec pks : forall seen l, NoDup seen -> shids_of pks seen = Ok l -> NoDup l /\ (forall x, In x l <-> In x seen \/ exists pk, In pk pks /\ pubkey_to_shid pk = Ok x) /\ forall pk, In pk pks -> exists x, pubkey_to_shid pk = Ok x.
Proof.
  induction pks as [|pk pks IH]; intros seen l N H; cbn [shids_of] in H.
  - assert (seen = l) as -> by congruence. split; [exact N|]. split; [|intros pk []]. intro x. split; [auto|]. intros [Q|(pk & [] & _)]. exact Q.
  - destruct (pubkey_to_shid pk) as [z| |] eqn:E; cbn [obind] in H; [|discriminate..].
    assert (N' : NoDup (if existsb (Z.eqb z) seen then seen else seen ++ [z]) /\ forall x, In x (if existsb (Z.eqb z) seen then seen else seen ++ [z]) <-> In x seen \/ x = z).
    { destruct (existsb (Z.eqb z) seen) eqn:EX.
      - apply existsb_exists in EX. destruct EX as (y & Y1 & Y2). apply Z.eqb_eq in Y2. subst y. split; [exact N|]. intro x. split; [auto|]. intros [Q| ->]; assumption.
      - split.
        + apply (Permutation_NoDup (l := z :: seen)); [apply Permutation_cons_append|]. constructor; [|exact N]. intro Q. assert (existsb (Z.eqb z) seen = true) by (apply existsb_exists; exists z; split; [exact Q|apply Z.eqb_refl]). congruence.
        + intro x. rewrite in_app_iff. cbn [In]. split; intros [Q|Q]; auto; [destruct Q as [<-|[]]; auto]. }
    destruct N' as [N1 N2]. destruct (IH _ _ N1 H) as (A & B' & C). split; [exact A|]. split.
    + intro x. rewrite B', N2. split.
      * intros [[Q| ->]|(p & P1 & P2)]; [auto|right; exists pk; split; [left; reflexivity|exact E]|right; exists p; split; [right; exact P1|exact P2]].
      * intros [Q|(p & [->|P1] & P2)]; [auto|left; right; congruence|right; exists p; auto].
    + intros p [->|Q]; [eauto|apply C; exact Q].
Qed.
Lemma shids_crash pks : forall seen, shids_of pks seen = Panic <-> exists pk, In pk pks /\ length pk < 48.
Proof.
  induction pks as [|pk pks IH]; intro seen; cbn [shids_of]; [split; [discriminate|intros (pk & [] & _)]|]. unfold pubkey_to_shid at 1. destruct (Nat.ltb_spec (length pk) 48) as [L|L]; cbn [obind].
  - split; [intros _; exists pk; split; [left; reflexivity|exact L]|reflexivity].
  - rewrite IH. split; intros (p & P1 & P2); exists p; (split; [|exact P2]); [right; exact P1|]. destruct P1 as [->|P1]; [lia|exact P1].
Qed.
Lemma shids_not_err pks : forall seen, shids_of pks seen <> Err.
Proof. induction pks as [|pk pks IH]; intro seen; cbn [shids_of]; [discriminate|]. unfold pubkey_to_shid at 1. destruct (Nat.ltb _ _); cbn [obind]; [discriminate|apply IH]. Qed.

Section Filter.
Context {F : Type} (populate : list Z -> option F) (holds : F -> Z -> bool).
Notation make := (make_wot_filter F populate).
Notation contains := (wot_contains F holds).
(** What xorfilter promises: a filter made of different numbers holds each of them. *)
Hypothesis populate_holds : forall keys x, NoDup keys -> populate keys = Some x -> forall k, In k keys -> holds x k = true.
(** Everybody in the circle is found. *)
Theorem C118_found pks x : make pks = Ok x -> forall pk, In pk pks -> contains x pk = Ok true.
Proof.
  unfold make_wot_filter. intros H pk HP. destruct (shids_of pks []) as [l| |] eqn:E; cbn [obind] in H; [|discriminate..]. destruct (populate l) as [f|] eqn:EP; [|discriminate]. assert (x = (Z.of_nat (length l), f)) as -> by congruence.
  destruct (shids_spec pks [] l (NoDup_nil _) E) as (N & I1 & AL). destruct (AL pk HP) as [z Z1]. assert (IZ : In z l) by (apply I1; right; exists pk; auto). unfold wot_contains. cbn [fst snd]. destruct (Z.eqb_spec (Z.of_nat (length l)) 0) as [Q|Q]; [destruct l; [destruct IZ|cbn in Q; lia]|].
  rewrite Z1. cbn [obind]. rewrite (populate_holds l f N EP z IZ). reflexivity.
Qed.
(** Whoever shares the eight middle bytes of their key with somebody in the circle is found too. *)
Theorem C118_same_middle pks x pk other : make pks = Ok x -> In pk pks -> pubkey_to_shid other = pubkey_to_shid pk -> contains x other = Ok true.
Proof. intros H HP HO. pose proof (C118_found pks x H pk HP) as Q. unfold wot_contains in *. destruct (fst x =? 0)%Z; [discriminate|]. rewrite HO. exact Q. Qed.
End Filter.
Section Filter2.
Context {F : Type} (populate : list Z -> option F) (holds : F -> Z -> bool).
Notation make := (make_wot_filter F populate).
Notation contains := (wot_contains F holds).
(** The number of items is the number of different short ids. *)
Theorem C118_items pks x : make pks = Ok x -> exists ids, NoDup ids /\ fst x = Z.of_nat (length ids) /\ populate ids = Some (snd x) /\ forall z, In z ids <-> exists pk, In pk pks /\ pubkey_to_shid pk = Ok z.
Proof.
  unfold make_wot_filter. intro H. destruct (shids_of pks []) as [l| |] eqn:E; cbn [obind] in H; [|discriminate..]. destruct (populate l) as [f|] eqn:EP; [|discriminate]. assert (x = (Z.of_nat (length l), f)) as -> by congruence. destruct (shids_spec pks [] l (NoDup_nil _) E) as (N & I1 & _).
  exists l. split; [exact N|]. split; [reflexivity|]. split; [exact EP|]. intro z. rewrite I1. cbn [In]. tauto.
Qed.
(** The order in which the keys come in changes neither the number of items nor the set of ids. *)
Theorem C118_order pks pks' x x' : (forall pk, In pk pks <-> In pk pks') -> make pks = Ok x -> make pks' = Ok x' -> fst x = fst x' /\ exists ids ids', Permutation ids ids' /\ populate ids = Some (snd x) /\ populate ids' = Some (snd x').
Proof.
  intros HP H H'. destruct (C118_items _ _ H) as (l & N & L & P & S1). destruct (C118_items _ _ H') as (l' & N' & L' & P' & S1').
  assert (Permutation l l'). { apply NoDup_Permutation; [assumption..|]. intro z. rewrite S1, S1'. split; intros (pk & A & B'); exists pk; (split; [apply HP; exact A|exact B']). }
  split; [rewrite L, L', (Permutation_length H0); reflexivity|]. exists l, l'. auto.
Qed.
(** An empty circle holds nobody, whatever the filter says and however short the key. *)
Theorem C118_empty x pk : make [] = Ok x -> contains x pk = Ok false.
Proof. unfold make_wot_filter. cbn [shids_of obind]. destruct (populate []) as [f|]; [|discriminate]. intro H. assert (x = (0%Z, f)) as -> by (cbn in H; congruence). reflexivity. Qed.
(** Making the filter crashes exactly when a key is shorter than 48 characters or Populate gives up; asking crashes exactly for such keys when somebody is in the circle. *)
Theorem C118_make_crash pks : (make pks = Panic <-> (exists pk, In pk pks /\ length pk < 48) \/ exists ids, shids_of pks [] = Ok ids /\ populate ids = None) /\ make pks <> Err.
Proof.
  unfold make_wot_filter. pose proof (shids_crash pks []) as C. pose proof (shids_not_err pks []) as NE. destruct (shids_of pks []) as [l| |] eqn:E; cbn [obind].
  - destruct (populate l) as [f|] eqn:EP; split; try discriminate.
    + split; [discriminate|]. intros [Q|(ids & Q & R)]; [apply C in Q; discriminate|]. assert (ids = l) as -> by congruence. congruence.
    + split; [|reflexivity]. intros _. right. exists l. auto.
  - congruence.
  - split; [|discriminate]. split; [|reflexivity]. intros _. left. apply C. reflexivity.
Qed.
Theorem C118_ask_crash pks x pk : make pks = Ok x -> (contains x pk = Panic <-> pks <> [] /\ length pk < 48).
Proof.
  intro H. destruct (C118_items _ _ H) as (l & N & L & P & S1). unfold wot_contains. rewrite L. destruct pks as [|p pks].
  - destruct l as [|z l]; [|exfalso; destruct (proj1 (S1 z) (or_introl eq_refl)) as (q & [] & _)]. cbn. split; [discriminate|]. intros [Q _]. congruence.
  - assert (l <> []). { intros ->. unfold make_wot_filter in H. destruct (shids_of (p :: pks) []) as [l| |] eqn:E; [|discriminate..]. destruct (shids_spec _ [] l (NoDup_nil _) E) as (_ & _ & AL). destruct (AL p (or_introl eq_refl)) as [z Z1]. apply (proj2 (S1 z)). exists p. split; [left; reflexivity|exact Z1]. }
    destruct (Z.eqb_spec (Z.of_nat (length l)) 0) as [Q|Q]; [destruct l; [congruence|cbn in Q; lia]|]. unfold pubkey_to_shid. destruct (Nat.ltb_spec (length pk) 48); cbn [obind]; split; try discriminate; try (intros _; split; [discriminate|assumption]); try reflexivity. intros [_ W]. lia.
Qed.
End Filter2.

(** * Together: once loaded, the filter holds everybody the user follows and everybody on the lists of those that were loaded. *)
Theorem C118_trusted {F} (populate : list Z -> option F) (holds : F -> Z -> bool) follows s x : (forall keys x, NoDup keys -> populate keys = Some x -> forall k, In k keys -> holds x k = true) ->
  reached follows s -> lw_closed s = true -> make_wot_filter F populate (lw_got s) = Ok x ->
  (forall pk, In pk follows -> wot_contains F holds x pk = Ok true) /\ (forall w pk, In w (lw_workers s) -> In pk (k_list w) -> wot_contains F holds x pk = Ok true).
Proof.
  intros HP H C HM. destruct (C118_complete _ _ H C) as (_ & _ & G). split; [intros pk I1|intros w pk W1 W2]; apply (C118_found populate holds HP _ _ HM); apply G; [left; exact I1|right; exists w; auto].
Qed.
(** A filter that keeps the numbers themselves meets the law. *)
Definition keep (l : list Z) : option (list Z) := Some l.
Definition kept (l : list Z) (z : Z) : bool := existsb (Z.eqb z) l.
Example C118_law keys x : NoDup keys -> keep keys = Some x -> forall k, In k keys -> kept x k = true.
Proof. intros _ H k K. assert (keys = x) as <- by (unfold keep in H; congruence). apply existsb_exists. exists k. split; [exact K|apply Z.eqb_refl]. Qed.
Definition one_key : str := B "7e7e9c42a91bfef19fa929e5fda1b72e0ebc1a4c1141673e2794234d86addf4e".
Definition like_one : str := B "00000000000000000000000000000000" ++ firstn 16 (skipn 32 one_key) ++ B "ffffffffffffffff".
Example C118_filter_example : make_wot_filter _ keep [one_key; like_one] = Ok (1%Z, [1061752526161930046%Z]) /\ wot_contains _ kept (1%Z, [1061752526161930046%Z]) like_one = Ok true /\ one_key <> like_one /\
  wot_contains _ kept (1%Z, [1061752526161930046%Z]) (repeat "0"%char 64) = Ok false /\ wot_contains _ kept (1%Z, [1061752526161930046%Z]) (B "abc") = Panic.
Proof. vm_compute. repeat split; discriminate. Qed.

Print Assumptions C118_no_crash.
Print Assumptions C118_closed_once.
Print Assumptions C118_complete.
Print Assumptions C118_goes_on.
Print Assumptions C118_ends.
Print Assumptions C118_nobody.
Print Assumptions C118_found.
Print Assumptions C118_same_middle.
Print Assumptions C118_items.
Print Assumptions C118_order.
Print Assumptions C118_empty.
Print Assumptions C118_make_crash.
Print Assumptions C118_ask_crash.
Print Assumptions C118_trusted.
