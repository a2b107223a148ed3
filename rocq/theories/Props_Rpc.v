(** C85: calls to a remote signer. *)
From Verif Require Import Base Machine RpcModel.
Import ListNotations.
Open Scope nat_scope.

Section Rpc.
Context (prefix : str).
Notation run acts := (exec (step prefix) acts init).
Lemma rpc_id_inj m n : rpc_id prefix m = rpc_id prefix n -> m = n.
Proof. unfold rpc_id. intro H. apply app_inv_head in H. apply app_inv_head in H. apply dec_Z_inj in H. lia. Qed.
Lemma find_call_some id l i : find_call id l = Some i -> exists c, nth_error l i = Some c /\ cl_id c = id /\ registered c = true.
Proof.
  revert i. induction l as [|c l IH]; cbn [find_call]; intros i H; [discriminate|]. destruct (seqb (cl_id c) id && registered c) eqn:E.
  - assert (i = 0) by congruence. subst i. apply andb_true_iff in E. destruct E as [E1 E2]. apply seqb_eq in E1. exists c. auto.
  - destruct (find_call id l) as [j|]; [|discriminate]. cbn in H. assert (i = S j) by congruence. subst i. cbn [nth_error]. apply IH. reflexivity.
Qed.
Lemma find_call_none id l i c : find_call id l = None -> nth_error l i = Some c -> cl_id c = id -> registered c = false.
Proof.
  revert i. induction l as [|x l IH]; cbn [find_call]; intros i H N E; [destruct i; discriminate|]. destruct (seqb (cl_id x) id && registered x) eqn:Q; [discriminate|]. destruct (find_call id l); [discriminate|].
  destruct i; cbn in N; [|apply (IH i); auto]. assert (x = c) by congruence. subst x. rewrite E, seqb_refl in Q. exact Q.
Qed.
Ltac rpc_cases H := cbn [step] in H; repeat (match type of H with
  | context [match nth_error ?l ?i with _ => _ end] => let c := fresh "c" in let E := fresh "EN" in destruct (nth_error l i) as [c|] eqn:E; [|discriminate H]
  | context [match cl_phase ?c with _ => _ end] => let E := fresh "EP" in destruct (cl_phase c) eqn:E; try discriminate H
  | context [match cl_silent ?c with _ => _ end] => let E := fresh "ES" in destruct (cl_silent c) eqn:E; try discriminate H
  | context [match s_reader ?s with _ => _ end] => let E := fresh "ER" in destruct (s_reader s) eqn:E; try discriminate H
  | context [match find_call ?a ?b with _ => _ end] => let E := fresh "EF" in destruct (find_call a b) eqn:E; try discriminate H
  | context [if ?b then _ else _] => let E := fresh "EB" in destruct b eqn:E; try discriminate H
  end); try discriminate H; (injection H as <-).
(** What holds in every state. *)
Record good (s : st) : Prop := mkGood {
  g_id : forall i c, nth_error (s_calls s) i = Some c -> cl_id c = rpc_id prefix i;
  g_read : forall i a, s_reader s = RSending i a -> In a (s_got s) /\ exists c, nth_error (s_calls s) i = Some c /\ an_id a = cl_id c;
  g_res : forall i c r, nth_error (s_calls s) i = Some c -> cl_result c = Some r -> (cl_ctx c = true /\ r = Err) \/ exists a, In a (s_got s) /\ an_id a = cl_id c /\ r = return_value a;
  g_phase : forall i c, nth_error (s_calls s) i = Some c -> (match cl_phase c with PLeaving | PDeleted | PDone => cl_result c <> None | _ => cl_result c = None end);
  g_auth : s_expecting s = [] /\ s_auths s = [] }.
Lemma keep_call s i c c' j x : nth_error (s_calls s) i = Some c -> cl_id c' = cl_id c -> nth_error (s_calls s) j = Some x -> exists y, nth_error (upd (s_calls s) i c') j = Some y /\ cl_id y = cl_id x.
Proof. intros A B H. destruct (Nat.eq_dec i j) as [<-|N]; [exists c'; rewrite nth_upd_same by (eapply nth_lt; eassumption); split; congruence|]. exists x. rewrite nth_upd_other by assumption. auto. Qed.
Lemma put_good s i c c' : good s -> nth_error (s_calls s) i = Some c -> cl_id c' = cl_id c -> (forall r, cl_result c' = Some r -> (cl_ctx c' = true /\ r = Err) \/ exists a, In a (s_got s) /\ an_id a = cl_id c /\ r = return_value a) ->
  (match cl_phase c' with PLeaving | PDeleted | PDone => cl_result c' <> None | _ => cl_result c' = None end) -> good (put s i c').
Proof.
  intros G N HI HR HP. constructor; cbn [put s_calls s_reader s_got s_expecting s_auths].
  - intros j x H. apply nth_upd in H. destruct H as [[<- ->]|[_ H]]; [rewrite HI|]; apply (g_id s G); assumption.
  - intros j a H. destruct (g_read s G j a H) as (A & x & X1 & X2). split; [exact A|]. destruct (keep_call s i c c' j x N HI X1) as (y & Y1 & Y2). exists y. split; [exact Y1|congruence].
  - intros j x r H R. apply nth_upd in H. destruct H as [[<- ->]|[_ H]]; [|apply (g_res s G j); assumption]. rewrite HI. apply HR. exact R.
  - intros j x H. apply nth_upd in H. destruct H as [[<- ->]|[_ H]]; [exact HP|apply (g_phase s G j); exact H].
  - apply (g_auth s G).
Qed.
Lemma reader_good s r : good s -> (forall i a, r = RSending i a -> In a (s_got s) /\ exists c, nth_error (s_calls s) i = Some c /\ an_id a = cl_id c) -> good (set_reader s r).
Proof. intros G H. constructor; cbn [set_reader s_calls s_reader s_got s_expecting s_auths]; try apply G. exact H. Qed.
Lemma step_good a s s' : good s -> step prefix a s = Some s' -> good s'.
Proof.
  intros G H. destruct a as [relays|i|i|i|i|a| | |i|i].
  - rpc_cases H. constructor; cbn [s_calls s_reader s_got s_expecting s_auths].
    + intros j c H. apply nth_snoc in H. destruct H as [H|[-> ->]]; [apply (g_id s G); exact H|reflexivity].
    + intros j a H. destruct (g_read s G j a H) as (A & c & C1 & C2). split; [exact A|]. exists c. split; [apply nth_snoc_old; exact C1|exact C2].
    + intros j c r H R. apply nth_snoc in H. destruct H as [H|[-> ->]]; [apply (g_res s G j); assumption|discriminate].
    + intros j c H. apply nth_snoc in H. destruct H as [H|[-> ->]]; [apply (g_phase s G j); assumption|reflexivity].
    + apply (g_auth s G).
  - rpc_cases H. pose proof (g_phase s G i c EN) as P. rewrite EP in P. apply (put_good s i c); try assumption; try reflexivity. cbn [set_phase cl_result]. intros r R. congruence.
  - rpc_cases H; pose proof (g_phase s G i c EN) as P; rewrite EP in P; apply (put_good s i c); cbn [cl_id cl_phase cl_result cl_ctx]; try assumption; try reflexivity; intros r R; apply (g_res s G i); assumption.
  - rpc_cases H. pose proof (g_phase s G i c EN) as P. apply (put_good s i c); cbn [cl_id cl_phase cl_result cl_ctx]; try assumption; try reflexivity. intros r R. destruct (g_res s G i c r EN R) as [[_ Q]|Q]; auto.
  - rpc_cases H; apply (put_good s i c); cbn [cl_id cl_phase cl_result cl_ctx]; try assumption; try reflexivity; try discriminate; intros r R; left; split; congruence.
  - assert (G' : good (mkSt (s_calls s) RIdle (a :: s_got s) (s_expecting s) (s_auths s))).
    { constructor; cbn [s_calls s_reader s_got s_expecting s_auths]; try apply G; [discriminate|]. intros j c r N R. destruct (g_res s G j c r N R) as [Q|(x & X & Y)]; [auto|]. right. exists x. split; [right; exact X|exact Y]. }
    destruct (g_auth s G) as [A1 A2]. rpc_cases H; try assumption; try (rewrite A1 in EB0; discriminate).
    apply reader_good; [exact G'|]. cbn [s_got s_calls]. intros j x Q. assert (j = n /\ x = a) as [-> ->] by (split; congruence). split; [left; reflexivity|]. destruct (find_call_some _ _ _ EF) as (c & C1 & C2 & _). exists c. auto.
  - rpc_cases H. destruct (g_read s G i a ER) as (A & c' & C1 & C2). assert (c' = c) by congruence. subst c'. apply reader_good; [|discriminate]. apply (put_good s i c); cbn [cl_id cl_phase cl_result cl_ctx]; try assumption; try reflexivity; try discriminate. intros r R. right. exists a. split; [exact A|]. split; [exact C2|congruence].
  - rpc_cases H. apply reader_good; [exact G|discriminate].
  - rpc_cases H. pose proof (g_phase s G i c EN) as P. rewrite EP in P. apply (put_good s i c); try assumption; try reflexivity. cbn [set_phase cl_result cl_ctx]. intros r R. apply (g_res s G i); assumption.
  - rpc_cases H. pose proof (g_phase s G i c EN) as P. rewrite EP in P. apply (put_good s i c); try assumption; try reflexivity. cbn [set_phase cl_result cl_ctx]. intros r R. apply (g_res s G i); assumption.
Qed.
Lemma init_good : good init.
Proof. constructor; cbn; auto; try discriminate; intros [|i]; discriminate. Qed.
Lemma run_good acts s : run acts = Some s -> good s.
Proof. intro H. apply (invariant (step prefix) good init init_good (fun a s s' G => step_good a s s' G)). exists acts. exact H. Qed.

(** Whatever is interleaved: a call that has returned returns what an answer to its own request says, or fails because its context ended; and no two calls share an id. *)
Theorem C85_own_answer acts s i c r : run acts = Some s -> nth_error (s_calls s) i = Some c -> cl_result c = Some r ->
  (cl_ctx c = true /\ r = Err) \/ exists a, In a (s_got s) /\ an_id a = rpc_id prefix i /\ r = (if an_error a then Err else Ok (an_result a)).
Proof. intros H N R. pose proof (run_good _ _ H) as G. rewrite <- (g_id s G i c N). exact (g_res s G i c r N R). Qed.
(** A call that has left hears nothing more: an answer to it that is read later is dropped, and the reader goes on to the next. *)
Theorem C85_late_answer acts s i c a : run acts = Some s -> nth_error (s_calls s) i = Some c -> cl_phase c = PDeleted \/ cl_phase c = PDone -> s_reader s = RIdle -> an_id a = cl_id c -> an_result a <> B "auth_url" ->
  exists s', step prefix (ARead a) s = Some s' /\ s_reader s' = RIdle /\ s_calls s' = s_calls s.
Proof.
  intros H N P R E NA. pose proof (run_good _ _ H) as G. cbn [step]. rewrite R. destruct (seqb (an_result a) (B "auth_url")) eqn:Q; [apply seqb_eq in Q; contradiction|].
  destruct (find_call (an_id a) (s_calls s)) as [j|] eqn:F; [|eexists; repeat split].
  exfalso. destruct (find_call_some _ _ _ F) as (d & D1 & D2 & D3). assert (i = j) by (apply rpc_id_inj; rewrite <- (g_id s G i c N), <- (g_id s G j d D1); congruence). subst j. assert (d = c) by congruence. subst d. unfold registered in D3. destruct P as [P|P]; rewrite P in D3; discriminate.
Qed.
(** An answer to a call that has not left is taken up for that call. *)
Theorem C85_answer_taken acts s i c a : run acts = Some s -> nth_error (s_calls s) i = Some c -> cl_phase c <> PDeleted -> cl_phase c <> PDone -> s_reader s = RIdle -> an_id a = cl_id c -> an_result a <> B "auth_url" ->
  exists s', step prefix (ARead a) s = Some s' /\ s_reader s' = RSending i a /\ s_calls s' = s_calls s.
Proof.
  intros H N P1 P2 R E NA. pose proof (run_good _ _ H) as G. cbn [step]. rewrite R. destruct (seqb (an_result a) (B "auth_url")) eqn:Q; [apply seqb_eq in Q; contradiction|].
  destruct (find_call (an_id a) (s_calls s)) as [j|] eqn:F.
  - destruct (find_call_some _ _ _ F) as (d & D1 & D2 & D3). assert (i = j) by (apply rpc_id_inj; rewrite <- (g_id s G i c N), <- (g_id s G j d D1); congruence). subst j. eexists. repeat split.
  - exfalso. pose proof (find_call_none _ _ i c F N (eq_sym E)) as Q2. unfold registered in Q2. destruct (cl_phase c); congruence.
Qed.
(** The ids on the wire: the prefix, a dash and the number of the call, counted from one. *)
Theorem C85_ids acts s i c : run acts = Some s -> nth_error (s_calls s) i = Some c -> cl_id c = prefix ++ B "-" ++ dec_Z (Z.of_nat i + 1).
Proof. intros H N. rewrite (g_id s (run_good _ _ H) i c N). unfold rpc_id. rewrite Nat2Z.inj_succ, Z.add_1_r. reflexivity. Qed.
Theorem C85_ids_differ acts s i j c d : run acts = Some s -> nth_error (s_calls s) i = Some c -> nth_error (s_calls s) j = Some d -> cl_id c = cl_id d -> i = j.
Proof. intros H N M E. pose proof (run_good _ _ H) as G. rewrite (g_id s G i c N), (g_id s G j d M) in E. apply rpc_id_inj. exact E. Qed.
(** A call returns once: its result never changes. *)
Theorem C85_returns_once acts more s s' i c r : run acts = Some s -> exec (step prefix) more s = Some s' -> nth_error (s_calls s) i = Some c -> cl_result c = Some r -> exists c', nth_error (s_calls s') i = Some c' /\ cl_result c' = Some r.
Proof.
  intros H E N R. assert (G : good s) by (eapply run_good; eassumption). clear H acts. revert s G E c N R. induction more as [|a more IH]; intros s G E c N R; cbn [exec] in E; [assert (s = s') by congruence; subst; eauto|].
  destruct (step prefix a s) as [s1|] eqn:E1; [|discriminate]. pose proof (step_good _ _ _ G E1) as G1.
  assert (K : exists c1, nth_error (s_calls s1) i = Some c1 /\ cl_result c1 = Some r); [|destruct K as (c1 & K1 & K2); apply (IH s1 G1 E c1 K1 K2)].
  pose proof (g_phase s G i c N) as P. rewrite R in P. assert (U : forall k d d', nth_error (s_calls s) k = Some d -> (k = i -> cl_result d' = Some r) -> exists c1, nth_error (upd (s_calls s) k d') i = Some c1 /\ cl_result c1 = Some r).
  { intros k d d' D Q. destruct (Nat.eq_dec k i) as [->|Z]; [exists d'; rewrite nth_upd_same by (eapply nth_lt; eassumption); auto|]. exists c. rewrite nth_upd_other by assumption. auto. }
  destruct a as [relays|k|k|k|k|a| | |k|k]; rpc_cases E1; cbn [put set_reader s_calls]; eauto;
    try (exists c; split; [apply nth_snoc_old; exact N|exact R]);
    try (eapply U; [eassumption|]; intros ->; cbn [set_phase cl_result]; rewrite ?N in *; congruence);
    try (eapply U; [eassumption|]; intros ->; assert (c = c0) by congruence; subst c0; rewrite EP in P; discriminate).
Qed.
(** Answers that tell the user where to authorise are never shown. *)
Theorem C85_auth_refuted acts s : run acts = Some s -> s_auths s = [].
Proof. intro H. apply (g_auth s (run_good _ _ H)). Qed.

(** ** Without repeated answers and without contexts that end *)
Definition orderly (a : action) : Prop := match a with ACancel _ => False | _ => True end.
Record calm (s : st) : Prop := mkCalm { k_ctx : forall i c, nth_error (s_calls s) i = Some c -> cl_ctx c = false;
  k_once : NoDup (map an_id (s_got s)) -> forall i a, s_reader s = RSending i a -> exists c, nth_error (s_calls s) i = Some c /\ cl_result c = None;
  k_ok : NoDup (map an_id (s_got s)) -> s_reader s <> RCrashed }.
Lemma calm_put s i c c' : calm s -> nth_error (s_calls s) i = Some c -> cl_ctx c' = false -> (cl_result c = None -> cl_result c' = None) -> calm (put s i c').
Proof.
  intros K N HC HR. constructor; cbn [put s_calls s_reader s_got].
  - intros j x H. apply nth_upd in H. destruct H as [[<- ->]|[_ H]]; [exact HC|apply (k_ctx s K j); exact H].
  - intros ND j a H. destruct (k_once s K ND j a H) as (x & X1 & X2). destruct (Nat.eq_dec i j) as [<-|Z]; [exists c'; rewrite nth_upd_same by (eapply nth_lt; eassumption); split; [reflexivity|apply HR; congruence]|]. exists x. rewrite nth_upd_other by assumption. auto.
  - apply (k_ok s K).
Qed.
Lemma step_calm a s s' : orderly a -> good s /\ calm s -> step prefix a s = Some s' -> good s' /\ calm s'.
Proof.
  intros O [G K] H. split; [eapply step_good; eassumption|]. destruct a as [relays|i|i|i|i|a| | |i|i]; cbn in O; try tauto.
  - rpc_cases H. constructor; cbn [s_calls s_reader s_got].
    + intros j c N. apply nth_snoc in N. destruct N as [N|[-> ->]]; [apply (k_ctx s K j); exact N|reflexivity].
    + intros ND j a N. destruct (k_once s K ND j a N) as (c & C1 & C2). exists c. split; [apply nth_snoc_old; exact C1|exact C2].
    + apply (k_ok s K).
  - rpc_cases H. apply (calm_put s i c); try assumption; [apply (k_ctx s K i c EN)|auto].
  - rpc_cases H; (apply (calm_put s i c); try assumption; [apply (k_ctx s K i c EN)|auto]).
  - exfalso. rpc_cases H; pose proof (k_ctx s K i c EN); congruence.
  - assert (Q : calm (mkSt (s_calls s) RIdle (a :: s_got s) (s_expecting s) (s_auths s))) by (constructor; cbn [s_calls s_reader s_got]; [apply K|discriminate|discriminate]).
    rpc_cases H; try exact Q; try (constructor; cbn [s_calls s_reader s_got]; [apply K|discriminate|discriminate]).
    constructor; cbn [set_reader s_calls s_reader s_got map]; [apply K| |discriminate]. intros ND j x E. assert (j = n /\ x = a) as [-> ->] by (split; congruence). destruct (find_call_some _ _ _ EF) as (c & C1 & C2 & _). exists c. split; [exact C1|].
    apply NoDup_cons_iff in ND. destruct ND as [ND _]. destruct (cl_result c) as [r|] eqn:R; [|reflexivity]. exfalso. apply ND. destruct (g_res s G n c r C1 R) as [[B _]|(y & Y1 & Y2 & _)]; [pose proof (k_ctx s K n c C1); congruence|]. rewrite <- C2, <- Y2. apply in_map. exact Y1.
  - rpc_cases H. constructor; cbn [set_reader put s_calls s_reader s_got]; [|discriminate|discriminate]. intros j x N. apply nth_upd in N. destruct N as [[<- ->]|[_ N]]; [apply (k_ctx s K i c EN)|apply (k_ctx s K j); exact N].
  - rpc_cases H. constructor; cbn [set_reader s_calls s_reader s_got]; [apply K|discriminate|]. intros ND _. destruct (k_once s K ND i a ER) as (x & X1 & X2). assert (x = c) by congruence. subst x. pose proof (g_phase s G i c EN) as P. rewrite EP in P. contradiction.
  - rpc_cases H. apply (calm_put s i c); try assumption; [apply (k_ctx s K i c EN)|auto].
  - rpc_cases H. apply (calm_put s i c); try assumption; [apply (k_ctx s K i c EN)|auto].
Qed.
Lemma run_calm acts s : Forall orderly acts -> run acts = Some s -> good s /\ calm s.
Proof. intros F H. apply (invariant_on (step prefix) orderly (fun s => good s /\ calm s) init) with (l := acts); auto; [split; [apply init_good|constructor; cbn; try discriminate; intros [|i]; discriminate]|]. intros; eapply step_calm; eassumption. Qed.
(** The reader does not crash if every request is answered at most once and no context ends. *)
Theorem C85_no_crash_partial acts s : Forall orderly acts -> NoDup (map an_id (s_got s)) -> run acts = Some s -> s_reader s <> RCrashed.
Proof. intros F ND H. apply (k_ok s (proj2 (run_calm _ _ F H)) ND). Qed.
(** And an answer that has been read is handed over as soon as its call waits for it: the call waits for it if it was connected to a relay after it began to wait for that. *)
Theorem C85_answered_partial acts s i a : Forall orderly acts -> NoDup (map an_id (s_got s)) -> run acts = Some s -> s_reader s = RSending i a ->
  exists c, nth_error (s_calls s) i = Some c /\ ((cl_phase c = PSelect2 /\ exists s' c', step prefix ADeliver s = Some s' /\ s_reader s' = RIdle /\ nth_error (s_calls s') i = Some c' /\ cl_result c' = Some (if an_error a then Err else Ok (an_result a))) \/
     cl_phase c = PStart \/
     cl_phase c = PSelect1 /\ (cl_silent c <> 0 -> exists s' c', exec (step prefix) [AConnected i; ADeliver] s = Some s' /\ nth_error (s_calls s') i = Some c' /\ cl_result c' = Some (if an_error a then Err else Ok (an_result a)))).
Proof.
  intros F ND H R. destruct (run_calm _ _ F H) as [G K]. destruct (k_once s K ND i a R) as (c & N & RN). exists c. split; [exact N|]. pose proof (g_phase s G i c N) as P. assert (LT : i < length (s_calls s)) by (eapply nth_lt; eassumption). destruct (cl_phase c) eqn:EP; rewrite RN in P; try congruence; auto.
  - right. right. split; [reflexivity|]. intro S. destruct (cl_silent c) as [|k] eqn:ES; [congruence|]. cbn [exec]. cbn [step]. rewrite N, ES, EP. cbn [put s_reader s_calls]. rewrite R. rewrite nth_upd_same by exact LT. cbn [cl_phase]. eexists. eexists. split; [reflexivity|]. cbn [set_reader put s_calls]. rewrite nth_upd_same by (rewrite upd_length; exact LT). split; reflexivity.
  - left. split; [reflexivity|]. cbn [step]. rewrite R, N, EP. eexists. eexists. split; [reflexivity|]. cbn [set_reader put s_calls s_reader]. split; [reflexivity|]. rewrite nth_upd_same by exact LT. split; reflexivity.
Qed.
End Rpc.
Print Assumptions C85_own_answer.
Print Assumptions C85_ids_differ.
Print Assumptions C85_ids.
Print Assumptions C85_returns_once.
Print Assumptions C85_auth_refuted.
Print Assumptions C85_no_crash_partial.
Print Assumptions C85_answered_partial.
Definition ans (n : nat) (r : string) : answer := mkAns (rpc_id (B "gn-1") n) false (B r).
(** Two calls, answered the other way round. *)
Example C85_example : match exec (step (B "gn-1")) [ACall 1; ACall 2; AEnter 0; AEnter 1; AConnected 1; AConnected 0; ARead (ans 1 "pong"); ADeliver; ARead (ans 0 "ack"); ADeliver; ADelete 0; AClose 0] init with
  Some s => map cl_result (s_calls s) = [Some (Ok (B "ack")); Some (Ok (B "pong"))] /\ NoDup (map an_id (s_got s)) | None => False end.
Proof. vm_compute. split; [reflexivity|]. repeat constructor; cbn; intuition discriminate. Qed.
(** The answers of the two theorems above: to a call that has left, and to one that has not. *)
Example C85_late_example : match exec (step (B "gn-1")) [ACall 1; ACall 1; AEnter 0; AConnected 0; ARead (ans 0 "ack"); ADeliver; ADelete 0] init with
  Some s => map cl_phase (s_calls s) = [PDeleted; PStart] /\ s_reader s = RIdle /\
    option_map s_reader (step (B "gn-1") (ARead (ans 0 "ack")) s) = Some RIdle /\ option_map s_reader (step (B "gn-1") (ARead (ans 1 "ack")) s) = Some (RSending 1 (ans 1 "ack")) | None => False end.
Proof. vm_compute. repeat split. Qed.
(** A second answer to the same request, or a context that ends while an answer is handed over, takes the whole program down. *)
Theorem C85_twice_answered_refuted : exists acts s, exec (step (B "gn-1")) acts init = Some s /\ s_reader s = RCrashed /\ Forall orderly acts.
Proof. exists [ACall 1; AEnter 0; AConnected 0; ARead (ans 0 "pong"); ADeliver; ARead (ans 0 "pong"); ADelete 0; AClose 0; ACrash]. eexists. split; [vm_compute; reflexivity|]. split; [reflexivity|]. repeat constructor. Qed.
Theorem C85_cancelled_refuted : exists acts s, exec (step (B "gn-1")) acts init = Some s /\ s_reader s = RCrashed /\ NoDup (map an_id (s_got s)).
Proof. exists [ACall 1; AEnter 0; AConnected 0; ARead (ans 0 "pong"); ACancel 0; AGiveUp 0; ADelete 0; AClose 0; ACrash]. eexists. split; [vm_compute; reflexivity|]. split; [reflexivity|]. vm_compute. repeat constructor; cbn; auto. Qed.
(** A relay that is connected already signals before the call listens; then the call waits for ever although its request was published and answered, and so does every later call. *)
Theorem C85_lost_signal_refuted : exists acts s, exec (step (B "gn-1")) acts init = Some s /\ map cl_published (s_calls s) = [1] /\ map an_id (s_got s) = [rpc_id (B "gn-1") 0] /\ Forall orderly acts /\
  forall more s', Forall orderly more -> exec (step (B "gn-1")) more s = Some s' -> s_reader s' = s_reader s /\ s_reader s' <> RIdle /\ forall i c, nth_error (s_calls s') i = Some c -> cl_result c = None.
Proof.
  exists [ACall 1; AConnected 0; AEnter 0; ARead (ans 0 "pong")]. eexists. split; [vm_compute; reflexivity|]. split; [reflexivity|]. split; [reflexivity|]. split; [repeat constructor|]. intros more s' F H.
  match type of H with exec _ _ ?s0 = _ => set (s0' := s0) in * end.
  pose (I := fun s : st => s_reader s = RSending 0 (ans 0 "pong") /\ (exists c, nth_error (s_calls s) 0 = Some c /\ cl_phase c = PSelect1 /\ cl_silent c = 0) /\ forall i c, nth_error (s_calls s) i = Some c -> cl_result c = None /\ cl_ctx c = false /\ match cl_phase c with PLeaving | PDeleted | PDone => False | _ => True end).
  assert (HI : I s').
  { apply (invariant_on (step (B "gn-1")) orderly I s0') with (l := more); auto.
    - split; [reflexivity|]. split; [eexists; split; [reflexivity|split; reflexivity]|]. intros [|i] c N; cbn in N; [|destruct i; discriminate]. assert (c = mkCall (rpc_id (B "gn-1") 0) PSelect1 0 1 false None) by (vm_compute; vm_compute in N; congruence). subst c. cbn. auto.
    - clear. intros a s s' O (I1 & (c0 & N0 & P0 & S0) & I2) H.
      assert (U : forall k d d', nth_error (s_calls s) k = Some d -> (k = 0 -> cl_phase d' = PSelect1 /\ cl_silent d' = 0) -> cl_result d' = None /\ cl_ctx d' = false /\ match cl_phase d' with PLeaving | PDeleted | PDone => False | _ => True end -> I (put s k d')).
      { intros k d d' D Q1 Q2. split; [exact I1|]. split.
        - destruct (Nat.eq_dec k 0) as [->|Z]; [exists d'; split; [apply nth_upd_same; eapply nth_lt; eassumption|auto]|]. exists c0. split; [cbn [put s_calls]; rewrite nth_upd_other by assumption; exact N0|auto].
        - intros i c N. cbn [put s_calls] in N. apply nth_upd in N. destruct N as [[<- ->]|[_ N]]; [exact Q2|apply (I2 i); exact N]. }
      destruct a as [relays|i|i|i|i|a| | |i|i]; cbn in O; try tauto; cbn [step] in H.
      + injection H as <-. split; [exact I1|]. split; [exists c0; split; [apply nth_snoc_old; exact N0|auto]|]. intros i c N. apply nth_snoc in N. destruct N as [N|[_ ->]]; [apply (I2 i); exact N|cbn; auto].
      + destruct (nth_error (s_calls s) i) as [c|] eqn:EN; [|discriminate]. destruct (cl_phase c) eqn:EP; try discriminate. injection H as <-. destruct (I2 i c EN) as (A & B & _). apply (U i c); [exact EN| |cbn; auto]. intros ->. exfalso. congruence.
      + destruct (nth_error (s_calls s) i) as [c|] eqn:EN; [|discriminate]. destruct (cl_silent c) eqn:ES; [discriminate|]. injection H as <-. destruct (I2 i c EN) as (A & B & C). apply (U i c); [exact EN|intros ->; exfalso; congruence|]. cbn [cl_result cl_ctx cl_phase]. split; [exact A|]. split; [exact B|]. destruct (cl_phase c); auto.
      + destruct (nth_error (s_calls s) i) as [c|] eqn:EN; [|discriminate]. destruct (I2 i c EN) as (A & B & C). rewrite B in H. discriminate.
      + rewrite I1 in H. discriminate.
      + rewrite I1, N0, P0 in H. discriminate.
      + rewrite I1, N0, P0 in H. discriminate.
      + destruct (nth_error (s_calls s) i) as [c|] eqn:EN; [|discriminate]. destruct (I2 i c EN) as (A & B & C). destruct (cl_phase c); discriminate || contradiction.
      + destruct (nth_error (s_calls s) i) as [c|] eqn:EN; [|discriminate]. destruct (I2 i c EN) as (A & B & C). destruct (cl_phase c); discriminate || contradiction. }
  destruct HI as (I1 & _ & I2). split; [rewrite I1; reflexivity|]. split; [rewrite I1; discriminate|]. intros i c N. apply (I2 i c N).
Qed.
Print Assumptions C85_twice_answered_refuted.
Print Assumptions C85_cancelled_refuted.
Print Assumptions C85_lost_signal_refuted.

Print Assumptions C85_late_answer.
Print Assumptions C85_answer_taken.
