(** C57: the batched loader. *)
From Verif Require Import Base Machine LoaderModel LoaderProofs.
Import ListNotations.

(** [acts] is any schedule of callers, timers and batch goroutines; caller [c] is the [c]-th to call Load. *)
Definition loaded {K} (acts : list (laction K)) : list K := flat_map (fun a => match a with LLoad k => [k] | _ => [] end) acts.
Definition answers_to {K V} (c : nat) (log : list (lobs K V)) : list (option V) := flat_map (fun o => match o with LAnswered x v => if Nat.eqb x c then [v] else [] | _ => [] end) log.

Lemma loaded_keys {K V} fn cap acts : forall s0 s : lstate K V, exec (loader_step K V fn cap) acts s0 = Some s -> l_keys s = l_keys s0 ++ loaded acts.
Proof.
  induction acts as [|a acts IH]; intros s0 s H; cbn [exec] in H; [injection H as <-; symmetry; apply app_nil_r|].
  destruct (loader_step K V fn cap a s0) as [s1|] eqn:E; [|discriminate]. apply IH in H. rewrite H. unfold loaded. cbn [flat_map]. fold (loaded acts). rewrite app_assoc. f_equal. loader_cases E; rewrite ?app_nil_r; reflexivity.
Qed.
Lemma answers_length {K V} c (log : list (lobs K V)) : length (answers_to c log) = answers c log.
Proof. unfold answers_to, answers. induction log as [|o log IH]; [reflexivity|]. cbn [flat_map cnt]. rewrite app_length, IH. destruct o as [|x v]; [reflexivity|]. destruct (Nat.eqb x c); reflexivity. Qed.

(** Each answer goes to a caller that asked, and is what the batch function gave for that caller's own key in a call with that key. *)
Theorem C57_answer_is_for_own_key K V (fn : list K -> K -> option V) cap acts s c v newer older :
  exec (loader_step K V fn cap) acts (loader_init K V) = Some s -> l_log s = newer ++ LAnswered c v :: older ->
  exists keys k, nth_error (loaded acts) c = Some k /\ In (LCalled keys) older /\ In k keys /\ v = fn keys k.
Proof.
  intro H. pose proof (loaded_keys _ _ _ _ _ H) as LK. cbn [loader_init l_keys app] in LK. rewrite <- LK. revert newer older.
  assert (G : LInv fn cap s /\ forall newer older, l_log s = newer ++ LAnswered c v :: older -> exists keys k, nth_error (l_keys s) c = Some k /\ In (LCalled keys) older /\ In k keys /\ v = fn keys k); [|exact (proj2 G)].
  clear LK. eapply (invariant (loader_step K V fn cap) (fun s => LInv fn cap s /\ forall newer older, l_log s = newer ++ LAnswered c v :: older -> exists keys k, nth_error (l_keys s) c = Some k /\ In (LCalled keys) older /\ In k keys /\ v = fn keys k)); [| |exists acts; exact H].
  - split; [apply loader_inv_init|]. intros [|? ?] older Q; discriminate.
  - clear s H. intros a s s' [I P] H. pose proof (loader_inv_step _ _ _ _ _ I H) as I'. split; [exact I'|]. intros newer older Q. destruct newer as [|o newer].
    + destruct (li_log _ _ _ I' c v) as (keys & k & X1 & X2 & X3 & X4); [rewrite Q; left; reflexivity|]. exists keys, k. rewrite Q in X1. destruct X1 as [X1|X1]; [discriminate|]. auto.
    + assert (B : l_log s' = l_log s \/ exists o', l_log s' = o' :: l_log s) by (loader_cases H; eauto). assert (KK : forall k, nth_error (l_keys s) c = Some k -> nth_error (l_keys s') c = Some k) by (clear - H; loader_cases H; auto using nth_snoc_old).
      destruct B as [B|[o' B]]; rewrite Q in B.
      * symmetry in B. apply (P (o :: newer)) in B as (keys & k & X). exists keys, k. intuition.
      * injection B as _ B. symmetry in B. apply P in B as (keys & k & X). exists keys, k. intuition.
Qed.
Print Assumptions C57_answer_is_for_own_key.

(** No caller is answered twice, nor is anyone answered who did not ask. *)
Theorem C57_at_most_one_answer K V (fn : list K -> K -> option V) cap acts s c :
  exec (loader_step K V fn cap) acts (loader_init K V) = Some s -> length (answers_to c (l_log s)) <= (if Nat.ltb c (length (loaded acts)) then 1 else 0).
Proof.
  intro H. pose proof (loaded_keys _ _ _ _ _ H) as LK. cbn [loader_init l_keys app] in LK. rewrite <- LK, answers_length. apply loader_inv_exec in H. pose proof (li_ans _ _ _ H c) as A. unfold PoolProofs.one in A. lia.
Qed.
Print Assumptions C57_at_most_one_answer.

(** When no goroutine can take a further step, every caller has been answered exactly once ... *)
Theorem C57_everyone_answered K V (fn : list K -> K -> option V) cap acts s c :
  exec (loader_step K V fn cap) acts (loader_init K V) = Some s -> (forall a, internal a = true -> loader_step K V fn cap a s = None) ->
  c < length (loaded acts) -> length (answers_to c (l_log s)) = 1.
Proof.
  intros H Q HC. pose proof (loaded_keys _ _ _ _ _ H) as LK. cbn [loader_init l_keys app] in LK. rewrite <- LK in HC. rewrite answers_length. apply loader_inv_exec in H. exact (quiet_answered _ _ _ H Q c HC).
Qed.
Print Assumptions C57_everyone_answered.
(** ... and if no new callers come, that happens after finitely many steps. *)
Theorem C57_terminates K V (fn : list K -> K -> option V) cap (s : lstate K V) : exists n, forall acts s', forallb internal acts = true -> exec (loader_step K V fn cap) acts s = Some s' -> length acts <= n.
Proof. exists (Machine.c_total work (l_bs s)). intros acts s' F H. pose proof (work_run _ _ _ _ _ F H). lia. Qed.
Print Assumptions C57_terminates.

(** The batch function never gets no keys, nor more than the cap. *)
Theorem C57_batch_size K V (fn : list K -> K -> option V) cap acts s keys : exec (loader_step K V fn cap) acts (loader_init K V) = Some s -> In (LCalled keys) (l_log s) ->
  keys <> [] /\ (cap <> 0 -> length keys <= cap).
Proof. intros H HI. apply loader_inv_exec in H. exact (li_calls _ _ _ H keys HI). Qed.
Print Assumptions C57_batch_size.

(** A batch that is full need not wait for its timer, and only a full one goes before it. *)
Lemma full_step K V (fn : list K -> K -> option V) cap a s s' : cap <> 0 -> LInv fn cap s -> (forall i b, nth_error (l_bs s) i = Some b -> b_full b = true <-> length (b_reqs b) = cap) -> loader_step K V fn cap a s = Some s' ->
  forall i b, nth_error (l_bs s') i = Some b -> b_full b = true <-> length (b_reqs b) = cap.
Proof.
  intros C J F H. assert (NB : b_full (@new_batch K) = true <-> length (b_reqs (@new_batch K)) = cap) by (cbn; split; [discriminate|lia]).
  destruct (li_cur _ _ _ J) as (b0 & N0 & F0 & _ & L0). specialize (L0 C).
  loader_cases H; intros j y Q; (apply nth_snoc_upd in Q as [[_ ->]|[[_ Q]| ->]] || apply nth_upd in Q as [[_ ->]|[_ Q]]); lproj; eauto;
    try (match goal with A : b_full ?z = true |- true = true <-> length (b_reqs ?z) = cap => split; [intros _; eapply F; eauto|reflexivity] end).
  - split; [intros _; apply Nat.eqb_eq; assumption|reflexivity].
  - match goal with A : nth_error (l_bs s) (l_cur s) = Some ?z |- _ => assert (z = b0) as -> by congruence end. rewrite F0. split; [discriminate|]. intro Z. match goal with A : Nat.eqb _ cap = false |- _ => apply Nat.eqb_neq in A; contradiction end.
Qed.
Theorem C57_full_goes_at_once K V (fn : list K -> K -> option V) cap acts s i b : cap <> 0 -> exec (loader_step K V fn cap) acts (loader_init K V) = Some s -> nth_error (l_bs s) i = Some b -> b_ph b = BWait ->
  loader_step K V fn cap (LThreshold i) s <> None <-> length (b_reqs b) = cap.
Proof.
  intros C R N P. assert (F : LInv fn cap s /\ forall i b, nth_error (l_bs s) i = Some b -> b_full b = true <-> length (b_reqs b) = cap).
  { eapply (invariant (loader_step K V fn cap) (fun s => LInv fn cap s /\ forall i b, nth_error (l_bs s) i = Some b -> b_full b = true <-> length (b_reqs b) = cap)); [| |exists acts; exact R].
    - split; [apply loader_inv_init|]. intros [|[|q]] y Q; cbn in Q; try discriminate. injection Q as <-. cbn. split; [discriminate|lia].
    - intros a x y [J1 J2] H. split; [eapply loader_inv_step; eauto|eapply full_step; eauto]. }
  destruct F as [_ F]. rewrite <- (F i b N). unfold loader_step. rewrite N, P. destruct (b_full b); split; congruence.
Qed.
Print Assumptions C57_full_goes_at_once.

(** The comment at dataloader.go:14 says that the keys are unique. They are not: two callers with one key share a batch. *)
Theorem C57_unique_keys_refuted : exists (fn : list nat -> nat -> option nat) cap acts s keys,
  exec (loader_step nat nat fn cap) acts (loader_init nat nat) = Some s /\ In (LCalled keys) (l_log s) /\ ~ NoDup keys.
Proof.
  exists (fun _ k => Some k), 0, [LLoad 7; LLoad 7; LTimer 0; LSwap 0; LCall 0]. eexists. exists [7; 7]. split; [vm_compute; reflexivity|]. split; [left; reflexivity|]. intro N. inversion N as [|x l NI _]. apply NI. left. reflexivity.
Qed.
Print Assumptions C57_unique_keys_refuted.

(** Three callers, at most two to a batch; the function knows no 9; a timer of the full batch fires late and replaces the batcher of the third. *)
Example C57_example : exists s, exec (loader_step nat nat (fun ks k => if Nat.eqb k 9 then None else Some (k + length ks)) 2)
    [LLoad 5; LTimer 0; LLoad 9; LLoad 6; LTimer 1; LSwap 0; LCall 0; LAnswer 0; LAnswer 0; LSwap 1; LCall 1; LAnswer 1] (loader_init nat nat) = Some s /\
  l_log s = [LAnswered 2 (Some 7); LCalled [6]; LAnswered 1 None; LAnswered 0 (Some 7); LCalled [5; 9]] /\
  (forall a, internal a = true -> loader_step nat nat (fun ks k => if Nat.eqb k 9 then None else Some (k + length ks)) 2 a s = None).
Proof.
  eexists. split; [vm_compute; reflexivity|]. split; [reflexivity|]. intros a IA. destruct a as [k|i|i|i|i|i]; try discriminate; destruct i as [|[|[|[|[|i]]]]]; try reflexivity; destruct i; reflexivity.
Qed.
