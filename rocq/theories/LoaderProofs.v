(** Invariants of the batched loader. *)
From Verif Require Import Base Machine LoaderModel PoolProofs.
Import ListNotations.

Ltac lproj := cbn [l_keys l_bs l_cur l_log b_reqs b_full b_ph new_batch] in *.
Ltac loader_cases H :=
  unfold loader_step in H; cbv zeta beta in H;
  match type of H with context [match ?a with LLoad _ => _ | _ => _ end] => destruct a as [?k|?i|?i|?i|?i|?i] end;
  repeat match type of H with
  | (if ?b then _ else _) = _ => destruct b eqn:?
  | match ?o with Some _ => _ | None => _ end = _ => destruct o as [?|] eqn:?
  | match ?w with BIdle => _ | _ => _ end = _ => destruct w eqn:?
  | match ?w with nil => _ | _ => _ end = _ => destruct w as [|[? ?] ?] eqn:?
  | None = Some _ => discriminate H
  end; try discriminate H; injection H as <-; lproj.

Section Loader.
Context {K V : Type} (fn : list K -> K -> option V) (cap : nat).
Notation step := (loader_step K V fn cap).
Implicit Types (b : batch K) (s : lstate K V).

Definition is_caller (c : nat) (r : nat * K) : bool := Nat.eqb (fst r) c.
(** Requests of a caller in a batch, and those not yet answered. *)
Definition has_req (c : nat) b : nat := cnt (is_caller c) (b_reqs b).
Definition waiting b : list (nat * K) := match b_ph b with BAnswer todo => todo | _ => b_reqs b end.
Definition unanswered (c : nat) b : nat := cnt (is_caller c) (waiting b).
Definition answers (c : nat) (l : list (lobs K V)) : nat := cnt (fun o => match o with LAnswered x _ => Nat.eqb x c | _ => false end) l.
Definition idle b : Prop := b_ph b = BIdle.

Record LInv s : Prop := mkLI {
  li_cur : exists b, nth_error (l_bs s) (l_cur s) = Some b /\ b_full b = false /\ (b_ph b = BIdle \/ b_ph b = BWait \/ b_ph b = BLock) /\ (cap <> 0 -> length (b_reqs b) < cap);
  li_size : forall i b, nth_error (l_bs s) i = Some b -> (cap <> 0 -> length (b_reqs b) <= cap) /\ (b_reqs b = [] <-> b_ph b = BIdle);
  li_req : forall i b c k, nth_error (l_bs s) i = Some b -> In (c, k) (b_reqs b) -> nth_error (l_keys s) c = Some k;
  li_one : forall c, c_total (has_req c) (l_bs s) = one (Nat.ltb c (length (l_keys s)));
  li_ans : forall c, answers c (l_log s) + c_total (unanswered c) (l_bs s) = one (Nat.ltb c (length (l_keys s)));
  li_todo : forall i b todo, nth_error (l_bs s) i = Some b -> b_ph b = BAnswer todo -> In (LCalled (map snd (b_reqs b))) (l_log s) /\ forall r, In r todo -> In r (b_reqs b);
  li_calls : forall keys, In (LCalled keys) (l_log s) -> keys <> [] /\ (cap <> 0 -> length keys <= cap);
  li_log : forall c v, In (LAnswered c v) (l_log s) -> exists keys k, In (LCalled keys) (l_log s) /\ nth_error (l_keys s) c = Some k /\ In k keys /\ v = fn keys k
}.
Lemma c_total_app {X} (f : X -> nat) (a b : list X) : c_total f (a ++ b) = c_total f a + c_total f b.
Proof. unfold c_total. induction a as [|x a IH]; [reflexivity|]. cbn [app fold_right]. rewrite IH. lia. Qed.
Lemma answers_cons c o l : answers c (o :: l) = one (match o with LAnswered x _ => Nat.eqb x c | _ => false end) + answers c l. Proof. reflexivity. Qed.
Lemma cur_lt s : LInv s -> l_cur s < length (l_bs s).
Proof. intros [(b & H & _) _ _ _ _ _ _ _]. exact (nth_lt _ _ _ H). Qed.
Lemma cnt_zero {X} (f : X -> bool) l : (forall x, In x l -> f x = false) -> cnt f l = 0.
Proof. intro H. induction l as [|x l IH]; [reflexivity|]. cbn [cnt]. rewrite H by (left; reflexivity). apply IH. intros y Hy. apply H. right. exact Hy. Qed.
Lemma ltb_snoc c n : one (Nat.ltb c (n + 1)) = one (Nat.ltb c n) + one (Nat.eqb n c).
Proof. destruct (Nat.ltb_spec c (n + 1)), (Nat.ltb_spec c n), (Nat.eqb_spec n c); cbn; lia. Qed.
Lemma nth_snoc_key (l : list K) k c x : nth_error l c = Some x -> nth_error (l ++ [k]) c = Some x. Proof. apply nth_snoc_old. Qed.

(** Replacing a batch, possibly adding a new one, leaves the totals as the batch changes. *)
Lemma total_upd_new (f : batch K -> nat) l i x y : nth_error l i = Some y -> f new_batch = 0 -> c_total f (upd l i x ++ [new_batch]) + f y = c_total f l + f x.
Proof. intros H Z. rewrite c_total_app. unfold c_total at 2. cbn [fold_right]. rewrite Z. pose proof (c_total_upd f l i x y H). lia. Qed.

Ltac same_b := match goal with A : _ = Some ?b1, B : _ = Some ?b2 |- _ => let E := fresh in assert (E : b1 = b2) by congruence; subst b1 end.
Ltac tot f HN := match goal with
  | |- context [c_total f (upd ?l ?i ?x ++ [new_batch])] => pose proof (total_upd_new f l i x _ HN eq_refl)
  | |- context [c_total f (upd ?l ?i ?x)] => pose proof (c_total_upd f l i x _ HN) end.
Lemma nth_snoc_upd (l : list (batch K)) i x j y : nth_error (upd l i x ++ [new_batch]) j = Some y -> (i = j /\ y = x) \/ (i <> j /\ nth_error l j = Some y) \/ y = new_batch.
Proof. intro H. apply nth_snoc in H as [H|[_ ->]]; [apply nth_upd in H; tauto|auto]. Qed.

Lemma un_ph c b : unanswered c b = cnt (is_caller c) (match b_ph b with BAnswer todo => todo | _ => b_reqs b end). Proof. reflexivity. Qed.
Lemma snoc_new (l : list (batch K)) i x : nth_error (upd l i x ++ [new_batch]) (length l) = Some new_batch.
Proof. rewrite <- (upd_length l i x). apply nth_snoc_new. Qed.
Lemma loader_inv_step a s s' : LInv s -> step a s = Some s' -> LInv s'.
Proof.
  intros I H. pose proof (cur_lt s I) as CL. destruct I as [I1 I2 I3 I4 I5 I6 I7 I8].
  assert (CASES : forall (P : batch K -> Prop) i x, (forall j b, nth_error (l_bs s) j = Some b -> P b) -> P x -> (forall j b, nth_error (upd (l_bs s) i x) j = Some b -> P b)).
  { intros P i x A B j b Q. apply nth_upd in Q as [[_ ->]|[_ Q]]; eauto. }
  assert (CASESN : forall (P : batch K -> Prop) i x, (forall j b, nth_error (l_bs s) j = Some b -> P b) -> P x -> P new_batch -> (forall j b, nth_error (upd (l_bs s) i x ++ [new_batch]) j = Some b -> P b)).
  { intros P i x A B C j b Q. apply nth_snoc_upd in Q as [[_ ->]|[[_ Q]| ->]]; eauto. }
  constructor.
  - (* cur *) loader_cases H; destruct I1 as (bc & B1 & B2 & B3 & B4).
    + exists new_batch. split; [apply snoc_new|]. repeat split; auto. cbn. lia.
    + same_b. eexists. split; [apply nth_upd_same; exact CL|]. lproj. split; [exact B2|]. split.
      * destruct (b_reqs bc); auto.
      * intro C. specialize (B4 C). rewrite app_length in *. cbn [length] in *. apply Nat.eqb_neq in Heqb0. lia.
    + destruct (Nat.eq_dec i (l_cur s)) as [->|NE]; [same_b; congruence|]. exists bc. rewrite nth_upd_other by exact NE. auto.
    + destruct (Nat.eq_dec i (l_cur s)) as [->|NE]; [|exists bc; rewrite nth_upd_other by exact NE; auto]. same_b. eexists. split; [apply nth_upd_same; exact CL|]. lproj. auto.
    + exists new_batch. split; [apply snoc_new|]. repeat split; auto. cbn. lia.
    + destruct (Nat.eq_dec i (l_cur s)) as [->|NE]; [|exists bc; rewrite nth_upd_other by exact NE; auto]. same_b. destruct B3 as [B3|[B3|B3]]; congruence.
    + destruct (Nat.eq_dec i (l_cur s)) as [->|NE]; [|exists bc; rewrite nth_upd_other by exact NE; auto]. same_b. destruct B3 as [B3|[B3|B3]]; congruence.
  - (* size *) 
    loader_cases H; destruct I1 as (bc & B1 & B2 & B3 & B4); try apply CASESN; try apply CASES; auto; lproj; try (split; [cbn; lia|tauto]); try (apply I2 in Heqo; destruct Heqo as [Q1 Q2]; split; [exact Q1|]; rewrite ?Q2; split; congruence).
    + split; [intros _; apply Nat.eqb_eq in Heqb0; lia|]. split; intro Q; [destruct (b_reqs b); discriminate|]. apply I2 in Heqo as [_ Q2]. destruct (b_reqs b); [discriminate|]. apply Q2 in Q. discriminate.
    + same_b. split; [intro C; specialize (B4 C); rewrite app_length; cbn [length]; lia|]. split; intro Q; [destruct (b_reqs bc); discriminate|]. apply I2 in Heqo as [_ Q2]. destruct (b_reqs bc); [discriminate|]. apply Q2 in Q. discriminate.
  - (* req *) intros j b0 c k0. revert j b0. loader_cases H; try (intros j b0 Q HI); try (apply nth_snoc_upd in Q as [[<- ->]|[[NE Q]| ->]]); try (apply nth_upd in Q as [[<- ->]|[NE Q]]); lproj; try destruct HI; eauto.
    + apply in_app_or in HI as [HI|[HI|[]]]; [apply nth_snoc_key; eauto|]. injection HI as <- <-. apply nth_snoc_new.
    + apply nth_snoc_key; eauto.
    + apply in_app_or in HI as [HI|[HI|[]]]; [apply nth_snoc_key; eauto|]. injection HI as <- <-. apply nth_snoc_new.
    + apply nth_snoc_key; eauto.
  - (* one *) intro c. pose proof (I4 c) as O. loader_cases H; try (rename Heqo into HN0); tot (has_req c) HN0; unfold has_req in *; lproj; rewrite ?cnt_app, ?app_length in *; cbn [length cnt fst] in *; unfold is_caller in *; cbn [fst] in *;
      rewrite ?ltb_snoc; try lia; unfold one in *; destruct (Nat.eqb (length (l_keys s)) c) eqn:?; lia.
  - (* ans *) intro c. pose proof (I5 c) as O. loader_cases H; rename Heqo into HN0; rewrite ?answers_cons; tot (unanswered c) HN0; rewrite !un_ph in H; lproj.
    1-2: assert (P : b_ph b = BIdle \/ b_ph b = BWait \/ b_ph b = BLock) by (destruct I1 as (bc & B1 & _ & B3 & _); same_b; exact B3).
    1-2: assert (W : (match b_ph b with BAnswer todo => todo | _ => b_reqs b end) = b_reqs b) by (destruct P as [->|[->| ->]]; reflexivity); rewrite W in H.
    1-2: rewrite app_length, ltb_snoc; cbn [length].
    1-2: assert (W2 : forall x, cnt (is_caller c) (match (match b_reqs b with [] => BWait | _ :: _ => b_ph b end) with BAnswer todo => todo | _ => b_reqs b ++ [x] end) = cnt (is_caller c) (b_reqs b) + one (Nat.eqb (fst x) c))
      by (intro x; rewrite <- (Nat.add_0_r (one _)); change (one (fst x =? c) + 0) with (cnt (is_caller c) [x]); rewrite <- cnt_app; f_equal; destruct (b_reqs b); [reflexivity|]; destruct P as [->|[->| ->]]; reflexivity); rewrite W2 in H; cbn [fst] in H; lia.
    all: match goal with E : b_ph _ = _ |- _ => rewrite E in H end; rewrite ?cnt_cons in H; unfold is_caller in H; cbn [fst] in H; cbn [one]; lia.
  - (* todo *) intros j b0 todo Q P. loader_cases H; try (apply nth_snoc_upd in Q as [[<- ->]|[[NE Q]| ->]]); try (apply nth_upd in Q as [[<- ->]|[NE Q]]); lproj; try discriminate P; try (eapply I6; eassumption).
    1-2: destruct I1 as (bc & B1 & _ & B3 & _); same_b; exfalso; match type of P with context [b_reqs ?x] => destruct (b_reqs x); [discriminate P|] end; destruct B3 as [B3|[B3|B3]]; congruence.
    + injection P as <-. split; [left; reflexivity|auto].
    + destruct (I6 _ _ _ Q P). split; [right; assumption|assumption].
    + injection P as <-. destruct (I6 _ _ _ Heqo Heqb1) as [X Y]. split; [right; exact X|]. intros r HI. apply Y. right. exact HI.
    + destruct (I6 _ _ _ Q P). split; [right; assumption|assumption].
  - (* calls *) intros keys Q. loader_cases H; auto; try (apply I7; exact Q). all: destruct Q as [Q|Q]; [|auto]. 
    + injection Q as <-. apply I2 in Heqo as [Q1 Q2]. rewrite map_length. split; [|exact Q1]. intro Z. apply map_eq_nil in Z. apply Q2 in Z. congruence.
    + discriminate.
  - (* log *) intros c v Q. loader_cases H; try (apply I8 in Q as (keys & k0 & X1 & X2 & X3 & X4)); try (exists keys, k0; split; [auto|split; [first [apply nth_snoc_key; exact X2|exact X2]|split; auto]]; fail).
    + destruct Q as [Q|Q]; [discriminate|]. apply I8 in Q as (keys & k0 & X1 & X2 & X3 & X4). exists keys, k0. split; [right; exact X1|auto].
    + destruct Q as [Q|Q].
      * injection Q as <- <-. destruct (I6 _ _ _ Heqo Heqb0) as [X Y]. specialize (Y _ (or_introl eq_refl)). eexists _, _. split; [right; exact X|]. split; [eapply I3; eassumption|]. split; [|reflexivity]. change k with (snd (n, k)). apply in_map, Y.
      * apply I8 in Q as (keys & k0 & X1 & X2 & X3 & X4). exists keys, k0. split; [right; exact X1|auto].
Qed.
Lemma loader_inv_init : LInv (loader_init K V).
Proof.
  constructor; cbn.
  - exists new_batch. repeat split; auto. cbn. lia.
  - intros [|[|i]] b H; try discriminate. injection H as <-. cbn. split; [lia|tauto].
  - intros [|[|i]] b c k H; try discriminate. injection H as <-. intros [].
  - intro c. destruct c; reflexivity.
  - intro c. destruct c; reflexivity.
  - intros [|[|i]] b c H; try discriminate. injection H as <-. discriminate.
  - tauto.
  - tauto.
Qed.
Lemma loader_inv_exec acts s : exec step acts (loader_init K V) = Some s -> LInv s.
Proof. intro H. eapply (invariant step LInv); [exact loader_inv_init|intros; eapply loader_inv_step; eassumption|exists acts; exact H]. Qed.

(** Every action but a new caller brings the goroutines nearer to their end. *)
Definition work (b : batch K) : nat := match b_ph b with BIdle => 0 | BWait => 4 + length (b_reqs b) | BLock => 3 + length (b_reqs b) | BReady => 2 + length (b_reqs b) | BAnswer todo => length todo end.
Definition internal (a : laction K) : bool := match a with LLoad _ => false | _ => true end.
Lemma work_step a s s' : internal a = true -> step a s = Some s' -> c_total work (l_bs s') < c_total work (l_bs s).
Proof.
  intros IN H. loader_cases H; [discriminate|discriminate|..]; rename Heqo into HN0; tot work HN0; unfold work in H at 2 4; lproj;
    match goal with E : b_ph _ = _ |- _ => rewrite E in H end; cbn [length] in H; lia.
Qed.
Lemma work_run acts s s' : forallb internal acts = true -> exec step acts s = Some s' -> length acts + c_total work (l_bs s') <= c_total work (l_bs s).
Proof.
  revert s. induction acts as [|a acts IH]; intros s F H; cbn [forallb exec length] in *; [injection H as <-; lia|].
  apply andb_true_iff in F as [F1 F2]. destruct (step a s) as [s1|] eqn:E; [|discriminate]. apply work_step in E; [|exact F1]. apply IH in H; [|exact F2]. lia.
Qed.
Lemma quiet_answered s : LInv s -> (forall a, internal a = true -> step a s = None) -> forall c, c < length (l_keys s) -> answers c (l_log s) = 1.
Proof.
  intros I Q c HC. pose proof (li_ans s I c) as A. assert (Z : c_total (unanswered c) (l_bs s) = 0).
  { apply c_total_zero. intros b HI. apply In_nth_error in HI as [i HN]. rewrite un_ph. destruct (b_ph b) as [| | | |todo] eqn:P.
    - apply (li_size s I) in HN as [_ HN]. apply HN in P. rewrite P. reflexivity.
    - specialize (Q (LTimer i) eq_refl). cbn in Q. rewrite HN, P in Q. discriminate.
    - specialize (Q (LSwap i) eq_refl). cbn in Q. rewrite HN, P in Q. discriminate.
    - specialize (Q (LCall i) eq_refl). cbn in Q. rewrite HN, P in Q. discriminate.
    - destruct todo as [|[x k] todo]; [reflexivity|]. specialize (Q (LAnswer i) eq_refl). cbn in Q. rewrite HN, P in Q. discriminate. }
  rewrite Z in A. apply Nat.ltb_lt in HC. rewrite HC in A. cbn in A. lia.
Qed.
End Loader.
