(** State machines: runs of a step function over lists of actions. Nothing here models Go code; it is the frame in which
    the concurrent parts are modelled. A list of actions is a schedule, an action that is not enabled gives [None]. *)
From Verif Require Import Base.
Import ListNotations.

Section Machine.
Context {A S : Type}.
Variable step : A -> S -> option S.

Fixpoint exec (l : list A) (s : S) : option S :=
  match l with
  | [] => Some s
  | a :: l' => match step a s with Some s' => exec l' s' | None => None end
  end.

Definition reaches (s0 s : S) : Prop := exists l, exec l s0 = Some s.

Lemma exec_app l1 l2 s : exec (l1 ++ l2) s = match exec l1 s with Some s' => exec l2 s' | None => None end.
Proof. revert s. induction l1 as [|a l1 IH]; intro s; [reflexivity|]. cbn [app exec]. destruct (step a s); auto. Qed.

Lemma reaches_refl s : reaches s s. Proof. exists []. reflexivity. Qed.
Lemma reaches_trans a b c : reaches a b -> reaches b c -> reaches a c.
Proof. intros [l1 H1] [l2 H2]. exists (l1 ++ l2). rewrite exec_app, H1. exact H2. Qed.
Lemma reaches_step a s s' : step a s = Some s' -> reaches s s'.
Proof. intro H. exists [a]. cbn. rewrite H. reflexivity. Qed.

(** The invariant rule. *)
Lemma invariant (I : S -> Prop) s0 : I s0 -> (forall a s s', I s -> step a s = Some s' -> I s') -> forall s, reaches s0 s -> I s.
Proof.
  intros H0 HS s [l H]. revert s0 H0 H. induction l as [|a l IH]; intros s0 H0 H; cbn [exec] in H.
  - injection H as <-. exact H0.
  - destruct (step a s0) as [s1|] eqn:E; [|discriminate]. eapply IH; [|exact H]. eapply HS; eassumption.
Qed.
(** ... over runs that use only some of the actions. *)
Lemma invariant_on (P : A -> Prop) (I : S -> Prop) s0 : I s0 -> (forall a s s', P a -> I s -> step a s = Some s' -> I s') ->
  forall l s, Forall P l -> exec l s0 = Some s -> I s.
Proof.
  intros H0 HS l. revert s0 H0. induction l as [|a l IH]; intros s0 H0 s F H; cbn [exec] in H.
  - injection H as <-. exact H0.
  - apply Forall_cons_iff in F. destruct F as [F1 F2]. destruct (step a s0) as [s1|] eqn:E; [|discriminate].
    eapply IH; [|exact F2|exact H]. eapply HS; eassumption.
Qed.
End Machine.

(** Lists as arrays *)
Fixpoint upd {X} (l : list X) (i : nat) (x : X) : list X :=
  match l, i with
  | [], _ => []
  | _ :: l', O => x :: l'
  | y :: l', S i' => y :: upd l' i' x
  end.
Lemma upd_length {X} (l : list X) i x : length (upd l i x) = length l.
Proof. revert i. induction l as [|y l IH]; intros [|i]; cbn; auto. Qed.
Lemma nth_upd_same {X} (l : list X) i x : i < length l -> nth_error (upd l i x) i = Some x.
Proof. revert i. induction l as [|y l IH]; intros [|i] H; cbn in *; try lia; auto. apply IH. lia. Qed.
Lemma nth_upd_other {X} (l : list X) i j x : i <> j -> nth_error (upd l i x) j = nth_error l j.
Proof. revert i j. induction l as [|y l IH]; intros [|i] [|j] H; cbn; auto; congruence. Qed.
Lemma nth_upd {X} (l : list X) i j x y : nth_error (upd l i x) j = Some y ->
  (i = j /\ y = x) \/ (i <> j /\ nth_error l j = Some y).
Proof.
  intro H. destruct (Nat.eq_dec i j) as [->|N].
  - left. split; [reflexivity|]. assert (j < length l). { rewrite <- (upd_length l j x). apply nth_error_Some. congruence. }
    rewrite nth_upd_same in H by assumption. congruence.
  - right. rewrite nth_upd_other in H by assumption. auto.
Qed.
Lemma nth_snoc {X} (l : list X) x j y : nth_error (l ++ [x]) j = Some y -> nth_error l j = Some y \/ (j = length l /\ y = x).
Proof.
  intro H. destruct (Nat.lt_ge_cases j (length l)) as [L|L].
  - rewrite nth_error_app1 in H by exact L. auto.
  - rewrite nth_error_app2 in H by exact L. right. destruct (j - length l) as [|k] eqn:E.
    + cbn in H. split; [lia|congruence].
    + cbn in H. destruct k; discriminate.
Qed.
Lemma nth_snoc_old {X} (l : list X) x j y : nth_error l j = Some y -> nth_error (l ++ [x]) j = Some y.
Proof. intro H. rewrite nth_error_app1; [exact H|]. apply nth_error_Some. congruence. Qed.
Lemma nth_snoc_new {X} (l : list X) x : nth_error (l ++ [x]) (length l) = Some x.
Proof. rewrite nth_error_app2, Nat.sub_diag by lia. reflexivity. Qed.
Lemma nth_lt {X} (l : list X) i x : nth_error l i = Some x -> i < length l.
Proof. intro H. apply nth_error_Some. congruence. Qed.

(** Counting elements with a property *)
Fixpoint cnt {X} (f : X -> bool) (l : list X) : nat := match l with [] => 0 | x :: r => (if f x then 1 else 0) + cnt f r end.
Lemma cnt_upd {X} (f : X -> bool) l i x y : nth_error l i = Some y -> cnt f (upd l i x) + (if f y then 1 else 0) = cnt f l + (if f x then 1 else 0).
Proof.
  revert i. induction l as [|z l IH]; intros [|i] H; try discriminate; cbn [upd cnt nth_error] in *.
  - injection H as ->. lia.
  - specialize (IH i H). lia.
Qed.
Lemma cnt_app {X} (f : X -> bool) l m : cnt f (l ++ m) = cnt f l + cnt f m.
Proof. induction l as [|x l IH]; cbn [app cnt]; lia. Qed.
Lemma cnt_zero {X} (f : X -> bool) l : cnt f l = 0 -> forall x, In x l -> f x = false.
Proof. induction l as [|y l IH]; intros H x []; cbn [cnt] in H; [subst; destruct (f x); [lia|reflexivity]|]. apply IH; [lia|assumption]. Qed.
Lemma cnt_pos {X} (f : X -> bool) l i x : nth_error l i = Some x -> f x = true -> 0 < cnt f l.
Proof. revert i. induction l as [|y l IH]; intros [|i] H F; try discriminate; cbn [cnt nth_error] in *; [injection H as ->; rewrite F; lia|]. specialize (IH i H F). lia. Qed.

(** Histories, newest entry first. [ok x older] says that entry [x] is in order given the entries before it. *)
Fixpoint in_order {X} (ok : X -> list X -> Prop) (log : list X) : Prop :=
  match log with [] => True | x :: older => ok x older /\ in_order ok older end.
Lemma in_order_split {X} (ok : X -> list X -> Prop) log l2 x l1 : in_order ok log -> log = l2 ++ x :: l1 -> ok x l1.
Proof. intros H ->. induction l2 as [|y l2 IH]; cbn [app in_order] in H; [apply H|apply IH, H]. Qed.
Lemma in_order_tail {X} (ok : X -> list X -> Prop) l2 l1 : in_order ok (l2 ++ l1) -> in_order ok l1.
Proof. induction l2 as [|y l2 IH]; cbn [app in_order]; intro H; [exact H|apply IH, H]. Qed.
(** The chronological reading. *)
Lemma in_order_rev {X} (ok : X -> list X -> Prop) log l1 x l2 : in_order ok log -> rev log = l1 ++ x :: l2 -> ok x (rev l1).
Proof.
  intros H E. apply (in_order_split ok log (rev l2) x (rev l1) H).
  rewrite <- (rev_involutive log), E, rev_app_distr. cbn [rev]. rewrite <- app_assoc. reflexivity.
Qed.

(** Sums over a list *)
Definition c_total {X} (f : X -> nat) (l : list X) : nat := fold_right (fun x n => f x + n) 0 l.
Lemma c_total_upd {X} (f : X -> nat) l i x y : nth_error l i = Some y -> c_total f (upd l i x) + f y = c_total f l + f x.
Proof. revert i. induction l as [|z l IH]; intros [|i] H; try discriminate; cbn [upd c_total fold_right nth_error] in *; [injection H as ->; lia|]. specialize (IH i H). unfold c_total in *. lia. Qed.
