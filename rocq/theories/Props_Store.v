(** C58, C59, C60: key-value stores, relay hints, the relays of an event. *)
From Verif Require Import Base Machine FilterModel Nip19Model StoreModel StoreProofs HintsProofs.
Import ListNotations.

(** ** C58. [spec_view k ops]: the buffers of the caller and the value of the single key [k], by the operations on [k] alone. *)
Definition spec_value (k : str) (ops : list kop) : option str := snd (spec_view k ops).

(** Any operations on the memory store, read by Get of any key: no panic and the last value. Missing (see below): [clean] asks that no
    buffer be overwritten while the store holds it, and that the store be open. *)
Theorem C58_memory_is_a_map_partial ops : clean ops kv_init -> exists xs s, kv_run ops kv_init = Ok (xs, s) /\ forall k, kv_step (KGet k) s = Ok (KValue (spec_value k ops), s).
Proof.
  intro C. destruct (kv_run_spec ops _ _ kv_inv_init C) as (xs & s & E & [_ _ V]). exists xs, s. split; [exact E|]. intro k. cbn [kv_step]. unfold spec_value, spec_view. rewrite V. reflexivity.
Qed.
Print Assumptions C58_memory_is_a_map_partial.
Example C58_memory_example : let ops := [KNew (B "one"); KSet (B "a") (Some (Caller 0)); KNew (B "two"); KWrite (Caller 1) (B "TWO"); KSet (B "b") (Some (Caller 1));
    KUpdate (B "a") (fun v => match v with Some x => UNew (x ++ B "!") | None => UNoOp end); KDelete (B "b"); KUpdate (B "c") (fun v => match v with Some x => UNew x | None => UErr end)] in
  clean ops kv_init /\ spec_value (B "a") ops = Some (B "one!") /\ spec_value (B "b") ops = None /\ spec_value (B "c") ops = None.
Proof.
  split; [|vm_compute; auto]. cbn [clean allowed]. repeat (split; [try exact Logic.I|]; [..|intros x s1 E; vm_compute in E; injection E as <- <-]); try exact Logic.I; cbn; try lia.
  intros m Q. injection Q as <-. cbn. intros [Q|[]]. discriminate.
Qed.

(** An update that declines (or fails) changes nothing. *)
Theorem C58_declined_update f k s : f (contents (k_heap s) (kget (k_data s) k)) = UNoOp \/ f (contents (k_heap s) (kget (k_data s) k)) = UErr -> exists x, kv_step (KUpdate k f) s = Ok (x, s).
Proof. intros [E|E]; cbn [kv_step]; rewrite E; eauto. Qed.
Print Assumptions C58_declined_update.

(** Stored values are not independent of the buffers of the caller: neither those given to Set nor those got from Get. *)
Theorem C58_buffers_refuted : exists ops xs s, kv_run ops kv_init = Ok (xs, s) /\ Forall (fun o => o <> KClose) ops /\ kv_step (KGet (B "k")) s <> Ok (KValue (spec_value (B "k") ops), s).
Proof.
  exists [KNew (B "old"); KSet (B "k") (Some (Caller 0)); KWrite (Caller 0) (B "new")]. do 2 eexists. split; [vm_compute; reflexivity|]. split; [repeat constructor; discriminate|]. vm_compute. discriminate.
Qed.
Print Assumptions C58_buffers_refuted.
Theorem C58_got_buffers_refuted : exists ops xs s, kv_run ops kv_init = Ok (xs, s) /\ (exists n b, In (KWrite (Own n) b) ops) /\ kv_step (KGet (B "k")) s <> Ok (KValue (spec_value (B "k") ops), s).
Proof.
  exists [KUpdate (B "k") (fun _ => UNew (B "old")); KGet (B "k"); KWrite (Own 0) (B "new")]. do 2 eexists. split; [vm_compute; reflexivity|]. split; [exists 0, (B "new"); cbn; auto|]. vm_compute. discriminate.
Qed.
Print Assumptions C58_got_buffers_refuted.
(** After Close, Set panics (a write to a nil map). *)
Theorem C58_use_after_close_refuted : exists k v s, kv_run [KClose] kv_init = Ok ([KDone], s) /\ kv_step (KSet k v) s = Panic.
Proof. exists [], None. eexists. split; reflexivity. Qed.
Print Assumptions C58_use_after_close_refuted.

(** The stores on disk copy, so for them the claim holds whatever is done to the buffers (values are not nil). *)
Theorem C58_disk_is_a_map strict ops k : Forall disk_allowed ops -> fst (disk_step strict (KGet k) (snd (disk_run strict ops disk_init))) = KValue (spec_value k ops).
Proof. intro A. destruct (disk_run_spec strict ops _ _ disk_inv_init A) as [_ _ V]. cbn [disk_step fst]. unfold spec_value, spec_view. rewrite V. reflexivity. Qed.
Print Assumptions C58_disk_is_a_map.
Example C58_disk_example : let ops := [KNew (B "old"); KSet (B "k") (Some (Caller 0)); KWrite (Caller 0) (B "new"); KDelete (B "x")] in
  Forall disk_allowed ops /\ spec_value (B "k") ops = Some (B "old") /\ fst (disk_run true ops disk_init) = [KDone; KDone; KDone; KFailed] /\ fst (disk_run false ops disk_init) = [KDone; KDone; KDone; KDone].
Proof. split; [repeat constructor|vm_compute; auto]. Qed.
(** Deleting what is there succeeds in both, and only that key is gone. *)
Theorem C58_delete_present strict ops k v : Forall disk_allowed ops -> spec_value k ops = Some v -> let s := snd (disk_run strict ops disk_init) in
  fst (disk_step strict (KDelete k) s) = KDone /\ forall k', fst (disk_step strict (KGet k') (snd (disk_step strict (KDelete k) s))) = KValue (if seqb k' k then None else spec_value k' ops).
Proof.
  intros A V. cbv zeta. destruct (disk_run_spec strict ops _ _ disk_inv_init A) as [ND _ VV]. unfold spec_value, spec_view in *. rewrite VV in V. cbn [disk_step]. unfold disk_del. rewrite V. cbn [fst snd d_data]. split; [reflexivity|].
  intros k'. rewrite assoc_mdel by exact ND. rewrite VV. reflexivity.
Qed.

(** Deleting what is not there is an error in LMDB, not in Badger nor in memory. *)
Theorem C58_delete_missing k s strict : assoc k (d_data s) = None -> fst (disk_step strict (KDelete k) s) = (if strict then KFailed else KDone) /\ d_data (snd (disk_step strict (KDelete k) s)) = d_data s.
Proof. intro E. cbn [disk_step]. unfold disk_del. rewrite E. destruct strict; split; reflexivity. Qed.
Print Assumptions C58_delete_missing.

(** ** C59. The maximum of the saved times, each capped at the clock when it was saved; 0 when there is none. *)
Definition same_hint (pk relay : str) (key : nat) (op : saved_op) : bool := let '(_, p, r, k, _) := op in seqb p pk && seqb r relay && Nat.eqb k key.
Definition time_of (op : saved_op) : Z := let '(now, _, _, _, ts) := op in Z.min ts now.
Definition newest (pk relay : str) (key : nat) (ops : list saved_op) : Z := fold_right Z.max 0%Z (map time_of (filter (same_hint pk relay key) ops)).
Definition newest4 pk relay ops : tss := [newest pk relay 0 ops; newest pk relay 1 ops; newest pk relay 2 ops; newest pk relay 3 ops].
Definition saves_of (ops : list hop) : list saved_op := flat_map (fun o => match o with HSave now pk relay key ts => [(now, pk, relay, key, ts)] | HTop _ _ _ => [] end) ops.
Definition sane (op : saved_op) : Prop := let '(now, _, _, key, ts) := op in key < 4 /\ (0 <= ts)%Z /\ (0 <= now)%Z.

Lemma fold_max_app a b : fold_right Z.max 0%Z (a ++ b) = Z.max (fold_right Z.max 0%Z a) (fold_right Z.max 0%Z b).
Proof. induction a as [|x a IH]; cbn [app fold_right]; [|rewrite IH; lia]. assert (H : (0 <= fold_right Z.max 0 b)%Z) by (induction b; cbn [fold_right]; lia). lia. Qed.
Lemma newest_pos pk relay key ops : (0 <= newest pk relay key ops)%Z.
Proof. unfold newest. generalize (map time_of (filter (same_hint pk relay key) ops)). induction l; cbn [fold_right]; lia. Qed.
Lemma newest_snoc pk relay key ops now p r k ts : (0 <= Z.min ts now)%Z ->
  newest pk relay key (ops ++ [(now, p, r, k, ts)]) = if seqb p pk && seqb r relay && Nat.eqb k key then Z.max (newest pk relay key ops) (Z.min ts now) else newest pk relay key ops.
Proof.
  intro H. unfold newest. rewrite filter_app, map_app, fold_max_app. match goal with |- Z.max ?a ?b = ?c => change (Z.max (newest pk relay key ops) b = if seqb p pk && seqb r relay && Nat.eqb k key then Z.max (newest pk relay key ops) (Z.min ts now) else newest pk relay key ops) end.
  pose proof (newest_pos pk relay key ops) as Q. cbn [filter same_hint]. destruct (seqb p pk && seqb r relay && Nat.eqb k key); cbn [map fold_right time_of]; lia.
Qed.
Lemma tss_ext t u : length t = 4 -> length u = 4 -> (forall k, k < 4 -> tget t k = tget u k) -> t = u.
Proof. intros L1 L2 H. rewrite (tss4 t L1), (tss4 u L2). rewrite !H by lia. reflexivity. Qed.
Lemma newest4_get pk relay ops k : k < 4 -> tget (newest4 pk relay ops) k = newest pk relay k ops. Proof. intro H. destruct k as [|[|[|[|k]]]]; try reflexivity. lia. Qed.
Definition saved (pk relay : str) (ops : list saved_op) : bool := existsb (fun '(_, p, r, _, _) => seqb p pk && seqb r relay) ops.
Lemma saved_snoc pk relay ops now p r k ts : saved pk relay (ops ++ [(now, p, r, k, ts)]) = saved pk relay ops || (seqb p pk && seqb r relay).
Proof. unfold saved. rewrite existsb_app. cbn [existsb]. rewrite orb_false_r. reflexivity. Qed.
Lemma not_saved_newest pk relay key ops : saved pk relay ops = false -> newest pk relay key ops = 0%Z.
Proof.
  unfold newest, saved. induction ops as [|[[[[now p] r] k] ts] ops IH]; [reflexivity|]. cbn [existsb filter same_hint]. intro H. apply orb_false_iff in H as [H1 H2]. rewrite H1. cbn [andb]. exact (IH H2).
Qed.
Lemma hist_ind (P : list hop -> Prop) : P [] -> (forall l o, P l -> P (l ++ [o])) -> forall l, P l.
Proof. intros H0 H1 l. induction l using rev_ind; auto. Qed.
Lemma memh_run_app score sort a b db : memh_run score sort (a ++ b) db = obind (memh_run score sort a db) (memh_run score sort b).
Proof. revert db. induction a as [|o a IH]; intro db; [reflexivity|]. cbn [app memh_run]. destruct o as [now pk relay key ts|now pk n]; [apply IH|]. destruct (memh_topn score sort now pk n db) as [[u d]| |]; [apply IH|reflexivity|reflexivity]. Qed.

Lemma memh_run_entry score sort ops db : sort_law sort -> Forall sane (saves_of ops) -> memh_run score sort ops memdb_init = Ok db ->
  MInv db /\ forall pk relay, memh_entry db pk relay = if saved pk relay (saves_of ops) then Some (newest4 pk relay (saves_of ops)) else None.
Proof.
  intros SL. revert db. induction ops as [|ops o IH] using hist_ind; intros db F H.
  - injection H as <-. split; [constructor; [constructor|]; intros pk l Q; discriminate|reflexivity].
  - unfold saves_of in *. rewrite flat_map_app in *. fold (saves_of ops) in *. apply Forall_app in F as [F1 F2]. rewrite memh_run_app in H. destruct (memh_run score sort ops memdb_init) as [db1| |]; try discriminate. cbn [obind] in H.
    destruct (IH db1 F1 eq_refl) as [I E]. destruct o as [now p r k ts|now p n]; cbn [flat_map app] in *.
    + injection H as <-. inversion F2 as [|x l F3 _]; subst. destruct F3 as (HK & HT & HN). assert (HZ : (0 <= Z.min ts now)%Z) by lia. destruct (memh_save_spec now p r k ts db1 I) as [I' E']. split; [exact I'|].
      intros pk relay. rewrite E', saved_snoc. rewrite (seqb_sym pk p), (seqb_sym relay r). destruct (seqb p pk && seqb r relay) eqn:M.
      * rewrite orb_true_r. f_equal. apply andb_true_iff in M as [M1 M2]. apply seqb_eq in M1, M2. subst p r. rewrite E. unfold tss_after.
        assert (T : forall t, (saved pk relay (saves_of ops) = true /\ t = newest4 pk relay (saves_of ops)) \/ (saved pk relay (saves_of ops) = false /\ t = no_tss) -> forall k', k' < 4 -> tget t k' = newest pk relay k' (saves_of ops)).
        { intros t [[_ ->]|[S ->]] k' L; [apply newest4_get, L|]. rewrite tget_none. symmetry. apply not_saved_newest, S. }
        assert (NW : forall k', k' < 4 -> newest pk relay k' (saves_of ops ++ [(now, pk, relay, k, ts)]) = if Nat.eqb k' k then Z.max (newest pk relay k' (saves_of ops)) (Z.min ts now) else newest pk relay k' (saves_of ops)).
        { intros k' L. rewrite newest_snoc by exact HZ. rewrite !seqb_refl. cbn [andb]. rewrite (Nat.eqb_sym k k'). reflexivity. }
        apply tss_ext; [| reflexivity|].
        -- destruct (saved pk relay (saves_of ops)); [|apply upd_len; reflexivity]. destruct (_ <? _)%Z; [apply upd_len|]; reflexivity.
        -- intros k' L. rewrite newest4_get, NW by exact L. destruct (saved pk relay (saves_of ops)) eqn:S.
           ++ assert (TK : tget (newest4 pk relay (saves_of ops)) k = newest pk relay k (saves_of ops)) by (apply newest4_get, HK). destruct (Z.ltb_spec (tget (newest4 pk relay (saves_of ops)) k) (Z.min ts now)) as [Q|Q].
              ** rewrite tget_upd by (cbn; lia). rewrite newest4_get by exact L. destruct (Nat.eqb_spec k' k) as [->|_]; [lia|reflexivity].
              ** rewrite newest4_get by exact L. destruct (Nat.eqb_spec k' k) as [->|_]; [lia|reflexivity].
           ++ rewrite tget_upd by (cbn; lia). rewrite tget_none. rewrite (not_saved_newest pk relay k' _ S). destruct (Nat.eqb_spec k' k) as [->|_]; [lia|reflexivity].
      * rewrite orb_false_r, E. destruct (saved pk relay (saves_of ops)); [|reflexivity]. f_equal. unfold newest4. rewrite !newest_snoc by exact HZ. rewrite M. reflexivity.
    + cbn [memh_run] in H. destruct (memh_topn score sort now p n db1) as [[u d]| |] eqn:T; try discriminate. cbn [obind] in H. injection H as <-. destruct (memh_topn_state _ _ _ _ _ _ _ _ SL I T) as [I' E']. split; [exact I'|]. intros pk relay. rewrite E', app_nil_r. apply E.
Qed.

(** In memory: whatever the saves and queries, the time kept is the newest. *)
Theorem C59_memory_newest score sort ops db pk relay key : sort_law sort -> Forall sane (saves_of ops) -> memh_run score sort ops memdb_init = Ok db -> key < 4 ->
  memh_time db pk relay key = newest pk relay key (saves_of ops).
Proof.
  intros SL F H HK. destruct (memh_run_entry score sort ops db SL F H) as [_ E]. rewrite memh_time_entry, E. destruct (saved pk relay (saves_of ops)) eqn:S; [apply newest4_get, HK|]. symmetry. apply not_saved_newest, S.
Qed.
Print Assumptions C59_memory_newest.
(** And TopN gives the best n relays saved for that author, each once, best first, for any score of the four times. *)
Theorem C59_memory_top score sort ops db now pk n urls db' : sort_law sort -> Forall sane (saves_of ops) -> memh_run score sort ops memdb_init = Ok db -> (1 <= n)%Z ->
  memh_topn score sort now pk n db = Ok (urls, db') ->
  best_first (fun u => score now (newest4 pk u (saves_of ops))) (fun u => saved pk u (saves_of ops) = true) (Z.to_nat n) urls.
Proof.
  intros SL F H HN T. destruct (memh_run_entry score sort ops db SL F H) as [I E]. eapply best_first_ext; [eapply memh_topn_best; eassumption| |].
  - intros u HU. cbn beta in *. rewrite E in *. destruct (saved pk u (saves_of ops)); [reflexivity|congruence].
  - intro u. cbn beta. rewrite E. destruct (saved pk u (saves_of ops)); split; congruence.
Qed.
Print Assumptions C59_memory_top.
(** Insertion sort is one that satisfies the law. *)
Fixpoint insert {A} (cmp : A -> A -> Z) (x : A) (l : list A) : list A :=
  match l with [] => [x] | y :: r => if (cmp x y <=? 0)%Z then x :: l else y :: insert cmp x r end.
Definition isort (A : Type) (cmp : A -> A -> Z) (l : list A) : list A := fold_right (insert cmp) [] l.
Lemma insert_perm {A} cmp (x : A) l : Permutation (x :: l) (insert cmp x l).
Proof. induction l as [|y l IH]; [reflexivity|]. cbn [insert]. destruct (_ <=? _)%Z; [reflexivity|]. rewrite perm_swap. apply perm_skip, IH. Qed.
Lemma isort_law : sort_law isort.
Proof.
  intros A cmp l. assert (P : forall l, Permutation l (isort A cmp l)).
  { clear l. intro l. induction l as [|x l IH]; [reflexivity|]. unfold isort in *. cbn [fold_right]. rewrite <- insert_perm. apply perm_skip, IH. }
  split; [apply P|]. intros [G1 G2]. induction l as [|x l IH]; [constructor|]. unfold isort in *. cbn [fold_right]. set (s := fold_right (insert cmp) [] l) in *. clearbody s. clear P.
  induction s as [|y s IHs]; cbn [insert]; [constructor; constructor|]. inversion IH as [|z m S1 S2]; subst. destruct (Z.leb_spec (cmp x y) 0) as [L|L].
  - constructor; [exact IH|]. constructor; [exact L|]. rewrite Forall_forall in *. intros z Hz. apply (G2 _ y); auto.
  - constructor; [apply IHs, S1|]. rewrite Forall_forall in *. intros z Hz. apply (Permutation_in z (Permutation_sym (insert_perm cmp x s))) in Hz. destruct Hz as [<-|Hz]; [|auto]. specialize (G1 y x). lia.
Qed.
Definition demo_score (now : Z) (t : tss) : Z := (700 * tget t 1 + 350 * tget t 2 + 20 * tget t 3 - 500 * tget t 0)%Z.
Example C59_memory_example : let ops := [HSave 100 (B "pk") (B "wss://a") 1 50; HSave 100 (B "pk") (B "wss://b") 2 500; HTop 100 (B "pk") 1; HSave 100 (B "pk") (B "wss://a") 1 20; HSave 101 (B "qk") (B "wss://a") 1 99; HSave 102 (B "pk") (B "wss://c") 0 3] in
  Forall sane (saves_of ops) /\ exists db db', memh_run demo_score isort ops memdb_init = Ok db /\ memh_topn demo_score isort 103 (B "pk") 2 db = Ok ([B "wss://a"; B "wss://b"], db') /\ newest (B "pk") (B "wss://b") 2 (saves_of ops) = 100%Z.
Proof.
  split; [repeat constructor; try lia|]. do 2 eexists. split; [vm_compute; reflexivity|]. split; vm_compute; reflexivity.
Qed.
(** A negative number crashes it. *)
Theorem C59_memory_top_negative_refuted score sort now pk n db : (n < 0)%Z -> memh_topn score sort now pk n db = Panic.
Proof. intro H. unfold memh_topn. destruct (Z.ltb_spec n 0); [reflexivity|lia]. Qed.

(** But for n = 0 TopN gives them all. *)
Theorem C59_memory_top_zero_refuted : exists score sort ops db now pk urls db', sort_law sort /\ Forall sane (saves_of ops) /\ memh_run score sort ops memdb_init = Ok db /\
  memh_topn score sort now pk 0 db = Ok (urls, db') /\ ~ length urls <= 0.
Proof.
  exists demo_score, isort, [HSave 9 (B "pk") (B "wss://a") 0 1; HSave 9 (B "pk") (B "wss://b") 0 1]. eexists. exists 10%Z, (B "pk"). do 2 eexists. split; [exact isort_law|]. split; [repeat constructor; lia|]. split; [vm_compute; reflexivity|]. split; [vm_compute; reflexivity|]. cbn. lia.
Qed.
Print Assumptions C59_memory_top_zero_refuted.

(** ** On disk (LMDB and Badger). Authors are 32 bytes in lower-case hexadecimal; the clock is before 2^32 (the year 2106). *)
Definition disk_sane (op : saved_op) : Prop := let '(now, pk, _, key, ts) := op in key < 4 /\ (0 <= ts)%Z /\ (0 <= now < 2 ^ 32)%Z /\ exists b, author_key pk b.
Definition saved_positive (pk relay : str) (ops : list saved_op) : bool := existsb (fun '(now, p, r, _, ts) => seqb p pk && seqb r relay && (0 <? Z.min ts now)%Z) ops.
Lemma saved_positive_snoc pk relay ops now p r k ts : saved_positive pk relay (ops ++ [(now, p, r, k, ts)]) = saved_positive pk relay ops || (seqb p pk && seqb r relay && (0 <? Z.min ts now)%Z).
Proof. unfold saved_positive. rewrite existsb_app. cbn [existsb]. rewrite orb_false_r. reflexivity. Qed.
Lemma not_positive_newest pk relay key ops : Forall disk_sane ops -> saved_positive pk relay ops = false -> newest pk relay key ops = 0%Z.
Proof.
  unfold newest, saved_positive. induction ops as [|[[[[now p] r] k] ts] ops IH]; intro F; [reflexivity|]. inversion F as [|x l F1 F2]; subst. cbn [existsb filter same_hint]. intro H. apply orb_false_iff in H as [H1 H2]. specialize (IH F2 H2).
  destruct (seqb p pk && seqb r relay); cbn [andb] in *; [|exact IH]. destruct (Nat.eqb k key); [|exact IH]. cbn [map fold_right time_of]. rewrite IH. destruct F1 as (_ & ? & ? & _). apply Z.ltb_ge in H1. lia.
Qed.
Lemma kvh_run_app a b m : kvh_run (a ++ b) m = obind (kvh_run a m) (kvh_run b).
Proof. revert m. induction a as [|[[[[now p] r] k] ts] a IH]; intro m; [reflexivity|]. cbn [app kvh_run]. destruct (kvh_save now p r k ts m); [apply IH|reflexivity|reflexivity]. Qed.
Lemma kvh_run_entry ops : Forall disk_sane ops -> exists m, kvh_run ops [] = Ok m /\ VInv m /\
  forall pk b relay, author_key pk b -> kv_entry m b relay = if saved_positive pk relay ops then Some (newest4 pk relay ops) else None.
Proof.
  induction ops as [|[[[[now p] r] k] ts] ops IH] using rev_ind; intro F.
  - exists []. split; [reflexivity|]. split; [constructor; [constructor|intros ? ? []]|reflexivity].
  - apply Forall_app in F as [F1 F2]. destruct (IH F1) as (m1 & R & I & E). inversion F2 as [|x l F3 _]; subst. destruct F3 as (HK & HT & HN & b0 & A0). assert (HZ : (0 <= Z.min ts now)%Z) by lia.
    destruct (kvh_save_spec now p b0 r k ts m1 I A0 HK HT HN) as (m' & S & I' & E'). exists m'. split; [rewrite kvh_run_app, R; cbn [obind kvh_run]; rewrite S; reflexivity|]. split; [exact I'|].
    intros pk b relay A. rewrite E' by apply A. rewrite saved_positive_snoc. assert (PB : seqb b b0 = seqb p pk).
    { destruct A as [-> _], A0 as [-> _]. destruct (seqb_spec b b0) as [->|N]; [symmetry; apply seqb_refl|]. symmetry. apply seqb_neq. intro Q. apply hex_encode_inj in Q. congruence. }
    rewrite PB, (seqb_sym relay r). destruct (seqb p pk && seqb r relay) eqn:M.
    + apply andb_true_iff in M as [M1 M2]. apply seqb_eq in M1, M2. subst p r. cbn [andb]. rewrite (E pk b0 relay A0). unfold kv_after.
      assert (NW : forall k', k' < 4 -> newest pk relay k' (ops ++ [(now, pk, relay, k, ts)]) = if Nat.eqb k' k then Z.max (newest pk relay k' ops) (Z.min ts now) else newest pk relay k' ops).
      { intros k' L. rewrite newest_snoc by exact HZ. rewrite !seqb_refl. cbn [andb]. rewrite (Nat.eqb_sym k k'). reflexivity. }
      assert (TK : forall k', k' < 4 -> tget (match (if saved_positive pk relay ops then Some (newest4 pk relay ops) else None) with Some t => t | None => no_tss end) k' = newest pk relay k' ops).
      { intros k' L. destruct (saved_positive pk relay ops) eqn:Q; [apply newest4_get, L|]. rewrite tget_none. symmetry. apply not_positive_newest; assumption. }
      destruct (Z.ltb_spec (tget (match (if saved_positive pk relay ops then Some (newest4 pk relay ops) else None) with Some t => t | None => no_tss end) k) (Z.min ts now)) as [L|L].
      * rewrite TK in L by exact HK. pose proof (newest_pos pk relay k ops) as P0. destruct (Z.ltb_spec 0 (Z.min ts now)) as [_|Q]; [|lia]. rewrite orb_true_r. f_equal.
        apply tss_ext; [apply upd_len; destruct (saved_positive pk relay ops); reflexivity|reflexivity|]. intros k' L'. rewrite tget_upd by (destruct (saved_positive pk relay ops); cbn; lia). rewrite newest4_get, NW, TK by exact L'. destruct (Nat.eqb_spec k' k) as [->|_]; [lia|reflexivity].
      * rewrite TK in L by exact HK. assert (EQ : newest4 pk relay (ops ++ [(now, pk, relay, k, ts)]) = newest4 pk relay ops).
        { apply tss_ext; [reflexivity|reflexivity|]. intros k' L'. rewrite !newest4_get, NW by exact L'. destruct (Nat.eqb_spec k' k) as [->|_]; [lia|reflexivity]. }
        transitivity (if saved_positive pk relay ops || (0 <? Z.min ts now)%Z then Some (newest4 pk relay ops) else None); [|destruct (_ || _); [f_equal; symmetry; exact EQ|reflexivity]]. destruct (saved_positive pk relay ops) eqn:Q; [reflexivity|]. rewrite (not_positive_newest pk relay k ops F1 Q) in L. destruct (Z.ltb_spec 0 (Z.min ts now)); [lia|reflexivity].
    + cbn [andb]. rewrite orb_false_r, (E pk b relay A). destruct (saved_positive pk relay ops); [|reflexivity]. f_equal. unfold newest4. rewrite !newest_snoc by exact HZ. rewrite M. reflexivity.
Qed.
Theorem C59_disk_newest_partial ops pk relay key : Forall disk_sane ops -> (exists b, author_key pk b) -> key < 4 ->
  exists m, kvh_run ops [] = Ok m /\ kvh_time m pk relay key = newest pk relay key ops.
Proof.
  intros F [b A] HK. destruct (kvh_run_entry ops F) as (m & R & I & E). exists m. split; [exact R|]. unfold kvh_time. rewrite (key_of pk b relay A). specialize (E pk b relay A). unfold kv_entry in E.
  destruct (saved_positive pk relay ops) eqn:Q; destruct (assoc (b ++ relay) m) as [v|]; try discriminate; cbn [option_map] in E.
  - assert (E' : kv_parse_value v = newest4 pk relay ops) by congruence. rewrite E'. apply newest4_get, HK.
  - symmetry. apply not_positive_newest; assumption.
Qed.
Print Assumptions C59_disk_newest_partial.
Theorem C59_disk_top_partial score sort lmdb ops m now pk n urls : sort_law sort -> Forall disk_sane ops -> (exists b, author_key pk b) -> kvh_run ops [] = Ok m ->
  kvh_topn score sort lmdb now pk n m = Ok urls ->
  best_first (fun u => score now (newest4 pk u ops)) (fun u => saved_positive pk u ops = true) (Z.to_nat n) urls.
Proof.
  intros SL F [b A] R T. destruct (kvh_run_entry ops F) as (m' & R' & I & E). rewrite R in R'. injection R' as <-. eapply best_first_ext; [eapply (kvh_topn_best score sort lmdb now pk b); eassumption| |].
  - intros u HU. cbn beta in *. rewrite (E pk b u A) in *. destruct (saved_positive pk u ops); [reflexivity|congruence].
  - intro u. cbn beta. rewrite (E pk b u A). destruct (saved_positive pk u ops); split; congruence.
Qed.
Print Assumptions C59_disk_top_partial.
Definition pk1 : str := hex_encode (repeat (byte_of 17) 32).
Definition pk2 : str := hex_encode (repeat (byte_of 34) 32).
Example C59_disk_example : let ops := [(100%Z, pk1, B "wss://a", 1, 50%Z); (100%Z, pk1, B "wss://b", 2, 500%Z); (100%Z, pk1, B "wss://a", 1, 20%Z); (101%Z, pk2, B "wss://c", 1, 99%Z)] in
  Forall disk_sane ops /\ exists m, kvh_run ops [] = Ok m /\ kvh_topn demo_score isort true 103 pk1 2 m = Ok [B "wss://a"; B "wss://b"] /\ kvh_topn demo_score isort false 103 pk1 0 m = Ok [].
Proof.
  split.
  - repeat constructor; try lia; try (exists (repeat (byte_of 17) 32); split; reflexivity). exists (repeat (byte_of 34) 32); split; reflexivity.
  - eexists. split; [vm_compute; reflexivity|]. split; vm_compute; reflexivity.
Qed.
(** From 2106 on, times wrap round. *)
Theorem C59_disk_2106_refuted : exists ops m pk relay key, (forall now p r k ts, In (now, p, r, k, ts) ops -> key < 4 /\ (0 <= ts)%Z /\ (0 <= now)%Z /\ exists b, author_key p b) /\ kvh_run ops [] = Ok m /\ kvh_time m pk relay key <> newest pk relay key ops.
Proof.
  exists [(4294967400%Z, pk1, B "wss://a", 1, 4294967300%Z)]. eexists. exists pk1, (B "wss://a"), 1. split; [|split; [vm_compute; reflexivity|vm_compute; discriminate]].
  intros now p r k ts [H|[]]. injection H as <- <- <- <- <-. repeat split; try lia. exists (repeat (byte_of 17) 32). split; reflexivity.
Qed.
Print Assumptions C59_disk_2106_refuted.
(** Badger takes the author's text as a prefix of the keys: asked for an author whose key is cut short (here: empty), it gives the relays of others. *)
Theorem C59_badger_prefix_refuted : exists score sort ops m now pk urls, sort_law sort /\ Forall disk_sane ops /\ kvh_run ops [] = Ok m /\ kvh_topn score sort false now pk 5 m = Ok urls /\ exists u, In u urls /\ saved pk u ops = false.
Proof.
  exists demo_score, isort, [(9%Z, pk1, B "wss://a", 1, 5%Z)]. eexists. exists 9%Z, (B ""). eexists. split; [exact isort_law|]. split; [repeat constructor; try lia; exists (repeat (byte_of 17) 32); split; reflexivity|].
  split; [vm_compute; reflexivity|]. split; [vm_compute; reflexivity|]. exists (B "wss://a"). split; [left; reflexivity|reflexivity].
Qed.
Print Assumptions C59_badger_prefix_refuted.
(** An over-long author panics. *)
Theorem C59_disk_long_author_refuted : exists pk relay, Forall (fun c => is_lower_hex_char c = true) pk /\ kvh_save 1 pk relay 1 1 [] = Panic.
Proof. exists (hex_encode (repeat (byte_of 17) 33)), []. split; [rewrite Forall_forall; intros c H; apply (proj1 (forallb_forall _ _) (hex_encode_lower _) c H)|vm_compute; reflexivity]. Qed.
Print Assumptions C59_disk_long_author_refuted.

(** ** SQL: the last save counts, not the newest. *)
Definition latest_saved (pk relay : str) (key : nat) (ops : list saved_op) : Z := last (map time_of (filter (same_hint pk relay key) ops)) 0%Z.
Lemma sqlh_run_app a b rows : sqlh_run (a ++ b) rows = sqlh_run b (sqlh_run a rows).
Proof. revert rows. induction a as [|[[[[now p] r] k] ts] a IH]; intro rows; [reflexivity|]. apply IH. Qed.
Lemma nth_upd_same_opt {A} (l : list A) i x d : i < length l -> nth i (upd l i x) d = x. Proof. intro H. apply nth_error_nth, nth_upd_same, H. Qed.
Definition rows4 (rows : list sqlrow) : Prop := Forall (fun '(_, _, cols) => length cols = 4) rows.
Lemma sql_save_rows4 pk relay key ts rows : rows4 rows -> rows4 (sql_save pk relay key ts rows).
Proof.
  unfold rows4. induction rows as [|[[p r] cols] rows IH]; intro F; cbn [sql_save]; [constructor; [rewrite upd_length; reflexivity|constructor]|]. inversion F as [|x l F1 F2]; subst.
  destruct (seqb p pk && seqb r relay); constructor; auto. rewrite upd_length. exact F1.
Qed.
Lemma sql_save_time pk relay key z rows p r k : rows4 rows -> key < 4 -> sqlh_time (sql_save pk relay key z rows) p r k = if seqb pk p && seqb relay r && Nat.eqb key k then z else sqlh_time rows p r k.
Proof.
  intros F HK. unfold sqlh_time. induction rows as [|[[p0 r0] cols] rows IH]; cbn [sql_save find].
  - destruct (seqb pk p && seqb relay r) eqn:M; cbn [andb]; [|reflexivity]. destruct (Nat.eqb_spec key k) as [->|N].
    + rewrite nth_upd_same_opt by (cbn; lia). reflexivity.
    + rewrite nth_upd_ne by exact N. destruct k as [|[|[|[|[|k]]]]]; reflexivity.
  - inversion F as [|x l F1 F2]; subst. destruct (seqb p0 pk && seqb r0 relay) eqn:M0; cbn [find].
    + apply andb_true_iff in M0 as [M1 M2]. apply seqb_eq in M1, M2. subst p0 r0. destruct (seqb pk p && seqb relay r) eqn:M; cbn [andb]; [|reflexivity]. destruct (Nat.eqb_spec key k) as [->|N].
      * rewrite !nth_upd_same_opt by (cbn; lia). unfold sql_max. lia.
      * rewrite nth_upd_ne by exact N. reflexivity.
    + destruct (seqb p0 p && seqb r0 r) eqn:M1; [|exact (IH F2)]. apply andb_true_iff in M1 as [M1 M2]. apply seqb_eq in M1, M2. subst p0 r0. rewrite (seqb_sym pk p), (seqb_sym relay r), M0. reflexivity.
Qed.
Lemma sqlh_run_rows4 ops rows : rows4 rows -> rows4 (sqlh_run ops rows).
Proof. revert rows. induction ops as [|[[[[now p] r] k] ts] ops IH]; intros rows F; [exact F|]. apply IH, sql_save_rows4, F. Qed.
Theorem C59_sql_keeps_last_save ops pk relay key : Forall sane ops -> sqlh_time (sqlh_run ops []) pk relay key = latest_saved pk relay key ops.
Proof.
  induction ops as [|[[[[now p] r] k] ts] ops IH] using rev_ind; intro F; [reflexivity|]. apply Forall_app in F as [F1 F2]. inversion F2 as [|x l F3 _]; subst. destruct F3 as (HK & _ & _).
  rewrite sqlh_run_app. cbn [sqlh_run]. rewrite sql_save_time, IH by (try exact F1; try exact HK; apply sqlh_run_rows4; constructor). unfold latest_saved. rewrite filter_app, map_app. cbn [filter same_hint]. rewrite capped_min.
  destruct (seqb p pk && seqb r relay && Nat.eqb k key); cbn [map time_of]; [rewrite last_last; reflexivity|rewrite app_nil_r; reflexivity].
Qed.
Print Assumptions C59_sql_keeps_last_save.
(** So it keeps the newest if the times of a hint are saved in order. *)
Theorem C59_sql_newest_partial ops pk relay key : Forall sane ops -> StronglySorted Z.le (map time_of (filter (same_hint pk relay key) ops)) -> sqlh_time (sqlh_run ops []) pk relay key = newest pk relay key ops.
Proof.
  intros F S. rewrite C59_sql_keeps_last_save by exact F. unfold latest_saved, newest. assert (P : Forall (fun z => 0 <= z)%Z (map time_of (filter (same_hint pk relay key) ops))).
  { rewrite Forall_forall. intros z Hz. apply in_map_iff in Hz as ([[[[now p] r] k] ts] & <- & Hz). apply filter_In in Hz as [Hz _]. rewrite Forall_forall in F. apply F in Hz as (_ & ? & ?). cbn. lia. }
  induction S as [|x l S IH FA]; [reflexivity|]. inversion P as [|y m P1 P2]; subst. specialize (IH P2). cbn [fold_right]. rewrite <- IH. destruct l as [|y l]; [cbn; lia|]. change (last (x :: y :: l) 0%Z) with (last (y :: l) 0%Z).
  assert (LI : In (last (y :: l) 0%Z) (y :: l)) by (clear; revert y; induction l as [|z l IH]; intro y; [left; reflexivity|]; right; apply IH). rewrite Forall_forall in FA. specialize (FA _ LI). lia.
Qed.
Print Assumptions C59_sql_newest_partial.
Example C59_sql_example : let ops := [(100%Z, B "pk", B "wss://a", 1, 20%Z); (100%Z, B "pk", B "wss://a", 2, 7%Z); (100%Z, B "pk", B "wss://a", 1, 50%Z)] in
  Forall sane ops /\ StronglySorted Z.le (map time_of (filter (same_hint (B "pk") (B "wss://a") 1) ops)) /\ newest (B "pk") (B "wss://a") 1 ops = 50%Z.
Proof. split; [repeat constructor; lia|]. split; [cbn; repeat constructor; lia|reflexivity]. Qed.
(** [excluded] is the new row, not the stored one: an older time overwrites a newer one. *)
Theorem C59_sql_newest_refuted : exists ops pk relay key, Forall sane ops /\ sqlh_time (sqlh_run ops []) pk relay key <> newest pk relay key ops.
Proof. exists [(100%Z, B "pk", B "wss://a", 1, 50%Z); (100%Z, B "pk", B "wss://a", 1, 20%Z)], (B "pk"), (B "wss://a"), 1. split; [repeat constructor; lia|vm_compute; discriminate]. Qed.
Print Assumptions C59_sql_newest_refuted.

(** ** C60. *)
Lemma decode_aux_more n : forall fuel data, length data <= n -> n <= fuel -> decode_relays_aux fuel data = decode_relays_aux n data.
Proof.
  induction n as [|n IH]; intros fuel data L1 L2.
  - destruct data; [destruct fuel; reflexivity|cbn in L1; lia].
  - destruct data as [|c rest]; [destruct fuel; reflexivity|]. destruct fuel as [|fuel]; [lia|]. cbn [decode_relays_aux length] in *. destruct (Nat.ltb _ _); [reflexivity|]. rewrite IH; [reflexivity| |lia]. rewrite skipn_length. lia.
Qed.
Lemma decode_cons r rest : length r <= 255 -> decode_relays (byte_of (N.of_nat (length r) mod 256) :: r ++ rest) = option_map (cons r) (decode_relays rest).
Proof.
  intro L. unfold decode_relays. cbn [length decode_relays_aux]. rewrite N.mod_small by lia. rewrite val_byte_of by lia. rewrite Nat2N.id. destruct (Nat.ltb_spec (length (r ++ rest)) (length r)) as [Q|Q]; [rewrite app_length in Q; lia|].
  rewrite firstn_app, Nat.sub_diag, firstn_O, app_nil_r, firstn_all2 by lia. rewrite skipn_app, Nat.sub_diag, skipn_all2 by lia. cbn [app]. rewrite (decode_aux_more (length rest)); [reflexivity|apply le_n|]. rewrite app_length. apply Nat.le_add_l.
Qed.
(** Relays of up to 255 bytes come back, in order; longer ones are left out. Missing: those of exactly 256 bytes. *)
Theorem C60_round_trip_partial relays : Forall (fun r => length r <> 256) relays -> decode_relays (encode_relays relays) = Some (filter (fun r => Nat.leb (length r) 255) relays).
Proof.
  induction relays as [|r relays IH]; intro F; [reflexivity|]. inversion F as [|x l F1 F2]; subst. specialize (IH F2). cbn [encode_relays filter].
  destruct (Nat.ltb_spec 256 (length r)), (Nat.leb_spec (length r) 255); try lia; [exact IH|]. rewrite decode_cons by assumption. rewrite IH. reflexivity.
Qed.
Print Assumptions C60_round_trip_partial.
Corollary C60_round_trip_short_partial relays : Forall (fun r => length r <= 255) relays -> decode_relays (encode_relays relays) = Some relays.
Proof.
  intro F. rewrite C60_round_trip_partial by (eapply Forall_impl; [|exact F]; cbn; intros; lia). f_equal. induction F as [|r l H F IH]; [reflexivity|]. cbn [filter]. apply Nat.leb_le in H. rewrite H, IH. reflexivity.
Qed.
Print Assumptions C60_round_trip_short_partial.
(** Exactly the lists of relays of up to 255 bytes come back. *)
Theorem C60_round_trip_exactly relays : decode_relays (encode_relays relays) = Some relays <-> Forall (fun r => length r <= 255) relays.
Proof.
  split; [|apply C60_round_trip_short_partial]. unfold decode_relays. generalize (length (encode_relays relays)) as n. generalize (encode_relays relays) as data. intros data n. revert data relays.
  induction n as [|n IH]; intros data relays; (destruct data as [|c rest]; cbn [decode_relays_aux]; [intro E; injection E as <-; apply Forall_nil|]); [discriminate|]. cbv zeta.
  destruct (Nat.ltb_spec (length rest) (N.to_nat (val c))); [discriminate|]. destruct (decode_relays_aux n _) as [l|] eqn:D; [|discriminate]. cbn [option_map]. intro E.
  injection E as <-. constructor; [|exact (IH _ _ D)]. rewrite firstn_length. assert (V := val_lt c). lia.
Qed.
Print Assumptions C60_round_trip_exactly.
Example C60_example : let l := [B "wss://relay.example.com"; B ""; B "wss://nos.lol"] in Forall (fun r => length r <= 255) l /\ decode_relays (encode_relays l) = Some l.
Proof. split; [repeat constructor; cbn; lia|vm_compute; reflexivity]. Qed.
(** A relay of 256 bytes: its length wraps round to 0. *)
Theorem C60_round_trip_refuted : exists relays, Forall (fun r => length r <= 256) relays /\ decode_relays (encode_relays relays) <> Some relays.
Proof. exists [repeat "w"%char 256]. split; [repeat constructor|vm_compute; discriminate]. Qed.
Print Assumptions C60_round_trip_refuted.

(** The relays of one event after any sequence of sightings: each once, in the order first seen, from the first that may create the record. *)
Fixpoint seen (id : str) (known : option (list str)) (ops : list (str * str * bool)) : option (list str) :=
  match ops with
  | [] => known
  | (i, relay, only) :: r =>
      seen id (if seqb i id then match known with Some l => Some (if smem relay l then l else l ++ [relay]) | None => if only then None else Some [relay] end else known) r
  end.
Definition event_id (id : str) (b : str) : Prop := id = hex_encode b /\ 8 <= length b.
Lemma track_spec (id b i bi relay : str) (only : bool) m (known : option (list str)) : event_id id b -> event_id i bi -> (firstn 8 bi = firstn 8 b -> bi = b) -> length relay <= 255 -> (forall l, known = Some l -> Forall (fun r => length r <= 255) l) ->
  assoc (relay_key b) m = option_map encode_relays known ->
  let known' := (if seqb i id then match known with Some l => Some (if smem relay l then l else l ++ [relay]) | None => if only then None else Some [relay] end else known) in
  (forall l, known' = Some l -> Forall (fun r => length r <= 255) l) /\ assoc (relay_key b) (track i relay only m) = option_map encode_relays known'.
Proof.
  intros [-> L] [-> Li] P LR F A known'. unfold track. rewrite hex_decode_encode. destruct (Nat.ltb_spec (length bi) 8); [lia|].
  assert (KEY : seqb (relay_key b) (relay_key bi) = seqb (hex_encode bi) (hex_encode b)).
  { unfold relay_key. destruct (seqb_spec (hex_encode bi) (hex_encode b)) as [Q|Q].
    - apply hex_encode_inj in Q. subst bi. apply seqb_refl.
    - apply seqb_neq. intro E. apply app_inv_head in E. symmetry in E. apply P in E. congruence. }
  subst known'. destruct (seqb_spec (hex_encode bi) (hex_encode b)) as [Q|Q].
  - apply hex_encode_inj in Q. subst bi. rewrite A. destruct known as [l|]; cbn [option_map].
    + rewrite (C60_round_trip_short_partial l (F l eq_refl)). destruct (smem relay l) eqn:S.
      * split; [exact F|exact A].
      * split; [|rewrite assoc_mset, seqb_refl; reflexivity]. intros l' Q. injection Q as <-. apply Forall_app. split; [apply F; reflexivity|constructor; [exact LR|constructor]].
    + destruct only; [split; [discriminate|exact A]|]. split; [|rewrite assoc_mset, seqb_refl; reflexivity]. intros l' Q. injection Q as <-. constructor; [exact LR|constructor].
  - split; [exact F|]. destruct (assoc (relay_key bi) m) as [data|]; [destruct (smem _ _)|destruct only]; rewrite ?assoc_mset, ?KEY; exact A.
Qed.
(** Missing: relays of 256 bytes, and two events whose ids begin with the same 8 bytes. See the refutations. *)
Theorem C60_event_relays_partial ops id b : event_id id b ->
  Forall (fun '(i, relay, _) => length relay <= 255 /\ exists bi, event_id i bi /\ (firstn 8 bi = firstn 8 b -> bi = b)) ops ->
  get_event_relays id (track_run ops []) = Ok (match seen id None ops with Some l => l | None => [] end).
Proof.
  intros HI F. assert (G : forall ops m known, Forall (fun '(i, relay, _) => length relay <= 255 /\ exists bi, event_id i bi /\ (firstn 8 bi = firstn 8 b -> bi = b)) ops ->
    (forall l, known = Some l -> Forall (fun r => length r <= 255) l) -> assoc (relay_key b) m = option_map encode_relays known -> get_event_relays id (track_run ops m) = Ok (match seen id known ops with Some l => l | None => [] end)).
  { clear ops F. induction ops as [|[[i relay] only] ops IH]; intros m known F K A; cbn [track_run seen].
    - destruct HI as [-> L]. unfold get_event_relays. rewrite hex_decode_encode. destruct (Nat.ltb_spec (length b) 8); [lia|]. rewrite A. destruct known as [l|]; [|reflexivity]. cbn [option_map]. rewrite (C60_round_trip_short_partial l (K l eq_refl)). reflexivity.
    - inversion F as [|x l F1 F2]; subst. destruct F1 as (LR & bi & E & P). destruct (track_spec id b i bi relay only m known HI E P LR K A) as [K' A']. apply IH; assumption. }
  apply G; [exact F|discriminate|reflexivity].
Qed.
Print Assumptions C60_event_relays_partial.
Definition id1 : str := hex_encode (B "aaaaaaaa" ++ repeat (byte_of 1) 24).
Definition id2 : str := hex_encode (B "aaaaaaaa" ++ repeat (byte_of 2) 24).
Definition id3 : str := hex_encode (B "bbbbbbbb" ++ repeat (byte_of 3) 24).
Example C60_event_example : let ops := [(id1, B "wss://z", true); (id1, B "wss://a", false); (id3, B "wss://c", false); (id1, B "wss://b", true); (id1, B "wss://a", false)] in
  Forall (fun '(i, relay, _) => length relay <= 255 /\ exists bi, event_id i bi /\ (firstn 8 bi = firstn 8 (B "aaaaaaaa" ++ repeat (byte_of 1) 24) -> bi = B "aaaaaaaa" ++ repeat (byte_of 1) 24)) ops /\
  get_event_relays id1 (track_run ops []) = Ok [B "wss://a"; B "wss://b"].
Proof.
  split; [|vm_compute; reflexivity]. repeat constructor; cbn [length B list_ascii_of_string]; try lia.
  1,2,4,5: exists (B "aaaaaaaa" ++ repeat (byte_of 1) 24); split; [split; [reflexivity|cbn; lia]|reflexivity].
  exists (B "bbbbbbbb" ++ repeat (byte_of 3) 24). split; [split; [reflexivity|cbn; lia]|]. intro Q. vm_compute in Q. discriminate.
Qed.
(** The first relay of an event is kept under the letter r and the first eight bytes of the id; with [only_if_exists] nothing new is kept. *)
Theorem C60_stored_under id b relay m : event_id id b -> assoc ("r"%char :: firstn 8 b) m = None -> assoc ("r"%char :: firstn 8 b) (track id relay false m) = Some (encode_relays [relay]) /\ track id relay true m = m /\
  forall k, k <> "r"%char :: firstn 8 b -> assoc k (track id relay false m) = assoc k m.
Proof.
  intros [-> L] A. unfold track. rewrite hex_decode_encode. destruct (Nat.ltb_spec (length b) 8); [lia|]. change (relay_key b) with ("r"%char :: firstn 8 b). rewrite A. split; [rewrite assoc_mset, seqb_refl; reflexivity|]. split; [reflexivity|].
  intros k N. rewrite assoc_mset. destruct (seqb_spec k ("r"%char :: firstn 8 b)); [congruence|reflexivity].
Qed.
(** Asking for what is no id, or one shorter than eight bytes, is an error and nothing else is; it never crashes. *)
Theorem C60_bad_id id m : (get_event_relays id m = Err <-> forall b, hex_decode id = Some b -> length b < 8) /\ get_event_relays id m <> Panic.
Proof.
  unfold get_event_relays. destruct (hex_decode id) as [b|]; [destruct (Nat.ltb_spec (length b) 8) as [L|L]|].
  - split; [|discriminate]. split; [intros _ c E; assert (c = b) by congruence; subst; exact L|reflexivity].
  - split; [|destruct (assoc _ m); discriminate]. split; [destruct (assoc _ m); discriminate|]. intro H. specialize (H b eq_refl). lia.
  - split; [|discriminate]. split; [intros _ c E; discriminate|reflexivity].
Qed.

(** Two events that share 8 bytes of their ids share their relays. *)
Theorem C60_shared_prefix_refuted : exists ops id b, event_id id b /\ Forall (fun '(i, relay, _) => length relay <= 255 /\ exists bi, event_id i bi) ops /\ get_event_relays id (track_run ops []) <> Ok (match seen id None ops with Some l => l | None => [] end).
Proof.
  exists [(id2, B "wss://a", false)], id1, (B "aaaaaaaa" ++ repeat (byte_of 1) 24). split; [split; [reflexivity|cbn; lia]|]. split; [|vm_compute; discriminate].
  constructor; [|constructor]. split; [cbn; lia|]. exists (B "aaaaaaaa" ++ repeat (byte_of 2) 24). split; [reflexivity|cbn; lia].
Qed.
Print Assumptions C60_shared_prefix_refuted.
(** One relay of 256 bytes makes the record unreadable, and the next sighting then drops all earlier ones. *)
Theorem C60_lost_relays_refuted : exists ops id b, event_id id b /\ Forall (fun '(i, relay, only) => i = id /\ length relay <= 256 /\ only = false) ops /\ In (id, B "wss://a", false) ops /\
  get_event_relays id (track_run ops []) = Ok [B "wss://b"].
Proof.
  exists [(id1, B "wss://a", false); (id1, repeat "w"%char 256, false); (id1, B "wss://b", false)], id1, (B "aaaaaaaa" ++ repeat (byte_of 1) 24). split; [split; [reflexivity|cbn; lia]|].
  split; [|split; [left; reflexivity|vm_compute; reflexivity]]. constructor; [|constructor; [|constructor; [|constructor]]]; (split; [reflexivity|split; [|reflexivity]]).
  - cbn. lia.
  - rewrite repeat_length. lia.
  - cbn. lia.
Qed.
Print Assumptions C60_lost_relays_refuted.

Print Assumptions C60_bad_id.

Print Assumptions C58_delete_present.
Print Assumptions C59_memory_top_negative_refuted.
Print Assumptions C60_stored_under.
