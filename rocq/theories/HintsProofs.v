(** Proofs about relay hints. *)
From Verif Require Import Base Machine FilterModel Nip19Model Nip19Proofs StoreModel StoreProofs.
Import ListNotations.

(** What slices.SortFunc promises: a permutation, ordered if the comparison is a weak order. *)
Definition good_cmp {A} (cmp : A -> A -> Z) : Prop :=
  (forall a b, (cmp a b < 0 <-> 0 < cmp b a)%Z) /\ (forall a b c, cmp a b <= 0 -> cmp b c <= 0 -> cmp a c <= 0)%Z.
Definition sort_law (sort : forall A, (A -> A -> Z) -> list A -> list A) : Prop :=
  forall A (cmp : A -> A -> Z) l, Permutation l (sort A cmp l) /\ (good_cmp cmp -> StronglySorted (fun a b => (cmp a b <= 0)%Z) (sort A cmp l)).

(** The best [n] of the relays satisfying [known], best first. *)
Record best_first (score : str -> Z) (known : str -> Prop) (n : nat) (urls : list str) : Prop := mkBF {
  bf_len : length urls <= n;
  bf_nodup : NoDup urls;
  bf_known : forall u, In u urls -> known u;
  bf_order : StronglySorted (fun a b => (score b <= score a)%Z) urls;
  bf_rest : forall u, known u -> ~ In u urls -> length urls = n /\ forall v, In v urls -> (score u <= score v)%Z
}.
Lemma sorted_firstn {A} (R : A -> A -> Prop) n : forall l, StronglySorted R l -> StronglySorted R (firstn n l).
Proof.
  induction n as [|n IH]; intros [|x l] S; cbn [firstn]; try constructor; inversion S as [|y m S1 S2]; subst; auto.
  rewrite Forall_forall in *. intros y Hy. apply S2. rewrite <- (firstn_skipn n l). apply in_or_app. left. exact Hy.
Qed.
Lemma sorted_split {A} (R : A -> A -> Prop) l m : StronglySorted R (l ++ m) -> forall x y, In x l -> In y m -> R x y.
Proof.
  induction l as [|a l IH]; intros S x y HX HY; [destruct HX|]. inversion S as [|b k S1 S2]; subst. destruct HX as [<-|HX]; [|eauto].
  rewrite Forall_forall in S2. apply S2. apply in_or_app. right. exact HY.
Qed.
Lemma sorted_map {A C} (f : A -> C) (R : A -> A -> Prop) (Q : C -> C -> Prop) l : (forall a b, In a l -> In b l -> R a b -> Q (f a) (f b)) -> StronglySorted R l -> StronglySorted Q (map f l).
Proof.
  induction l as [|x l IH]; intros H S; cbn [map]; constructor; inversion S as [|y m S1 S2]; subst.
  - apply IH; [intros; apply H; cbn; auto|exact S1].
  - rewrite Forall_forall in *. intros y Hy. apply in_map_iff in Hy as (z & <- & Hz). apply H; cbn; auto.
Qed.
Lemma nodup_firstn {A} n (l : list A) : NoDup l -> NoDup (firstn n l).
Proof.
  revert n. induction l as [|x l IH]; intros [|n] N; cbn [firstn]; try constructor; inversion N as [|y m N1 N2]; subst; auto.
  intro H. apply N1. rewrite <- (firstn_skipn n l). apply in_or_app. left. exact H.
Qed.
Lemma top_best sort {A} (name : A -> str) (sc : A -> Z) (score : str -> Z) l n :
  sort_law sort -> NoDup (map name l) -> (forall a, In a l -> sc a = score (name a)) ->
  best_first score (fun u => In u (map name l)) n (firstn n (map name (sort A (fun a b => sc b - sc a)%Z l))).
Proof.
  intros SL ND SC. destruct (SL A (fun a b => sc b - sc a)%Z l) as [P S]. set (l' := sort A _ l) in *.
  assert (S' : StronglySorted (fun a b => (score b <= score a)%Z) (map name l')).
  { eapply sorted_map; [|apply S; split; intros; lia]. intros a b Ha Hb Q. cbn beta in Q. rewrite <- !SC; [lia| |]; eapply Permutation_in; try (symmetry; exact P); assumption. }
  assert (PM : Permutation (map name l) (map name l')) by (apply Permutation_map, P).
  constructor.
  - apply firstn_le_length.
  - apply nodup_firstn. eapply Permutation_NoDup; eassumption.
  - intros u HU. eapply Permutation_in; [symmetry; exact PM|]. rewrite <- (firstn_skipn n (map name l')). apply in_or_app. left. exact HU.
  - apply sorted_firstn, S'.
  - intros u HU NU. assert (HS : In u (skipn n (map name l'))).
    { apply (Permutation_in u PM) in HU. rewrite <- (firstn_skipn n (map name l')) in HU. apply in_app_or in HU as [HU|HU]; tauto. }
    split.
    + rewrite firstn_length. assert (n < length (map name l')); [|lia]. destruct (Nat.lt_ge_cases n (length (map name l'))) as [L|L]; [exact L|]. rewrite skipn_all2 in HS by exact L. destruct HS.
    + intros v HV. rewrite <- (firstn_skipn n (map name l')) in S'. exact (sorted_split _ _ _ S' _ _ HV HS).
Qed.
Lemma best_first_ext score score' known known' n urls : best_first score known n urls -> (forall u, known u -> score u = score' u) -> (forall u, known u <-> known' u) -> best_first score' known' n urls.
Proof.
  intros [H1 H2 H3 H4 H5] E K. constructor; auto.
  - intros u HU. apply K, H3, HU.
  - rewrite <- (map_id urls). eapply sorted_map; [|exact H4]. intros a b Ha Hb Q. cbn beta in Q. rewrite <- !E; auto.
  - intros u HU NU. apply K in HU. destruct (H5 u HU NU) as [L Q]. split; [exact L|]. intros v HV. rewrite <- !E; auto.
Qed.

(** ** In memory. *)
Lemma find_index_some {A} (p : A -> bool) l i : find_index p l = Some i -> exists x, nth_error l i = Some x /\ p x = true.
Proof.
  revert i. induction l as [|x l IH]; intros i H; cbn [find_index] in H; [discriminate|]. destruct (p x) eqn:E; [injection H as <-; exists x; auto|].
  destruct (find_index p l) as [j|]; [|discriminate]. injection H as <-. exact (IH j eq_refl).
Qed.
Lemma find_index_none {A} (p : A -> bool) l : find_index p l = None -> forall x, In x l -> p x = false.
Proof.
  induction l as [|x l IH]; intros H y HI; [destruct HI|]. cbn [find_index] in H. destruct (p x) eqn:E; [discriminate|]. destruct HI as [<-|Hy]; [exact E|]. destruct (find_index p l); [discriminate|auto].
Qed.
Lemma find_index_app {A} (p : A -> bool) l m : find_index p (l ++ m) = match find_index p l with Some i => Some i | None => option_map (fun i => length l + i) (find_index p m) end.
Proof.
  induction l as [|x l IH]; cbn [find_index app length]; [destruct (find_index p m); reflexivity|]. destruct (p x); [reflexivity|]. rewrite IH. destruct (find_index p l); [reflexivity|]. destruct (find_index p m); reflexivity.
Qed.
Definition entry_of (ri : nat) (l : list (nat * tss)) : option (nat * tss) := find (fun e => Nat.eqb (fst e) ri) l.
Record MInv (db : memdb) : Prop := mkMI {
  mi_serial : NoDup (md_serial db);
  mi_entry : forall pk l, assoc pk (md_by db) = Some l -> NoDup (map fst l) /\ forall e, In e l -> fst e < length (md_serial db) /\ length (snd e) = 4
}.
Lemma serial_nth s r i : NoDup s -> i < length s -> find_index (seqb r) s = Some i <-> nth i s [] = r.
Proof.
  intros N L. split.
  - intro H. apply find_index_some in H as (x & H1 & H2). apply seqb_eq in H2. subst x. apply nth_error_nth, H1.
  - intro H. destruct (find_index (seqb r) s) as [j|] eqn:E.
    + apply find_index_some in E as (x & H1 & H2). apply seqb_eq in H2. subst x. f_equal. rewrite NoDup_nth_error in N. symmetry. apply N; [exact L|]. rewrite H1. rewrite (nth_error_nth' s [] L). congruence.
    + assert (Q : seqb r (nth i s []) = false) by (apply (find_index_none _ _ E), nth_In, L). rewrite H, seqb_refl in Q. discriminate.
Qed.
Lemma find_ext_in {A} (p q : A -> bool) l : (forall x, In x l -> p x = q x) -> find p l = find q l.
Proof. induction l as [|x l IH]; intro H; [reflexivity|]. cbn [find]. rewrite H by (left; reflexivity). destruct (q x); [reflexivity|]. apply IH. intros y Hy. apply H. right. exact Hy. Qed.
Definition memh_entry (db : memdb) (pk relay : str) : option tss :=
  match assoc pk (md_by db) with Some l => option_map snd (find (fun e => seqb (nth (fst e) (md_serial db) []) relay) l) | None => None end.
Lemma memh_time_entry db pk relay key : memh_time db pk relay key = match memh_entry db pk relay with Some t => tget t key | None => 0%Z end.
Proof. unfold memh_time, memh_entry. destruct (assoc pk (md_by db)) as [l|]; [|reflexivity]. destruct (find _ l) as [[a t]|]; reflexivity. Qed.
Lemma memh_entry_alt db pk relay : MInv db -> memh_entry db pk relay =
  match find_index (seqb relay) (md_serial db), assoc pk (md_by db) with Some ri, Some l => option_map snd (entry_of ri l) | _, _ => None end.
Proof.
  intros [I1 I2]. unfold memh_entry, entry_of. destruct (assoc pk (md_by db)) as [l|] eqn:E; [|destruct (find_index _ _); reflexivity].
  specialize (I2 _ _ E) as [_ I2]. destruct (find_index (seqb relay) (md_serial db)) as [ri|] eqn:F.
  - rewrite (find_ext_in _ (fun e => Nat.eqb (fst e) ri) l); [reflexivity|]. intros e He. destruct (I2 e He) as [L _]. destruct (Nat.eqb_spec (fst e) ri) as [Q|Q].
    + apply seqb_eq. apply serial_nth; [exact I1|exact L|]. rewrite F, Q. reflexivity.
    + apply seqb_neq. intro Q2. apply serial_nth in Q2; [|exact I1|exact L]. congruence.
  - assert (Z : find (fun e => seqb (nth (fst e) (md_serial db) []) relay) l = None); [|rewrite Z; reflexivity].
    destruct (find _ l) as [e|] eqn:Q; [|reflexivity]. apply find_some in Q as [He Q]. destruct (I2 e He) as [L _]. rewrite seqb_sym in Q. rewrite (find_index_none _ _ F) in Q by (apply nth_In, L). discriminate.
Qed.
Lemma find_app {A} (p : A -> bool) l m : find p (l ++ m) = match find p l with Some x => Some x | None => find p m end.
Proof. induction l as [|x l IH]; cbn [find app]; [reflexivity|]. destruct (p x); [reflexivity|exact IH]. Qed.
Lemma upd_map {A C} (f : A -> C) l i x y : nth_error l i = Some y -> f x = f y -> map f (upd l i x) = map f l.
Proof. revert i. induction l as [|a l IH]; intros [|i] H E; cbn in *; try discriminate; [injection H as ->; rewrite E; reflexivity|]. f_equal. eauto. Qed.
Lemma tget_upd t k k' z : k < length t -> tget (upd t k z) k' = if Nat.eqb k' k then z else tget t k'.
Proof.
  intro L. unfold tget. destruct (Nat.eqb_spec k' k) as [->|N]; [apply nth_error_nth, nth_upd_same, L|]. apply nth_upd_ne. congruence.
Qed.
Lemma tget_none k : tget no_tss k = 0%Z. Proof. destruct k as [|[|[|[|[|k]]]]]; reflexivity. Qed.
Lemma capped_min now ts : capped now ts = Z.min ts now. Proof. unfold capped. destruct (Z.ltb_spec now ts); lia. Qed.
Lemma entry_upd l i r t t' ri : NoDup (map fst l) -> nth_error l i = Some (r, t) -> entry_of ri (upd l i (r, t')) = if Nat.eqb ri r then Some (r, t') else entry_of ri l.
Proof.
  unfold entry_of. revert i. induction l as [|[a u] l IH]; intros [|i] N H; cbn [nth_error] in H; try discriminate; cbn [upd find fst].
  - injection H as -> ->. rewrite (Nat.eqb_sym ri r). destruct (Nat.eqb r ri); reflexivity.
  - inversion N as [|x m N1 N2]; subst. rewrite (IH i N2 H). destruct (Nat.eqb_spec a ri) as [EA|NE]; [|reflexivity]. destruct (Nat.eqb_spec ri r) as [EB|_]; [|reflexivity].
    exfalso. subst a ri. apply N1. apply nth_error_In in H. apply (in_map fst) in H. exact H.
Qed.
Lemma entry_index l ri i : find_index (fun e : nat * tss => Nat.eqb (fst e) ri) l = Some i -> exists t, nth_error l i = Some (ri, t) /\ entry_of ri l = Some (ri, t).
Proof.
  unfold entry_of. revert i. induction l as [|[a u] l IH]; intros i H; cbn [find_index find fst] in *; [discriminate|].
  destruct (Nat.eqb_spec a ri) as [EA|NE]; [injection H as <-; subst a; exists u; auto|]. destruct (find_index _ l) as [j|]; [|discriminate]. injection H as <-. exact (IH j eq_refl).
Qed.
Lemma entry_no_index l ri : find_index (fun e : nat * tss => Nat.eqb (fst e) ri) l = None -> entry_of ri l = None /\ ~ In ri (map fst l).
Proof.
  intro H. pose proof (find_index_none _ _ H) as F. split.
  - unfold entry_of. destruct (find _ l) as [e|] eqn:Q; [|reflexivity]. apply find_some in Q as [Q1 Q2]. rewrite F in Q2 by exact Q1. discriminate.
  - intro HI. apply in_map_iff in HI as (e & E & HI). apply F in HI. rewrite E, Nat.eqb_refl in HI. discriminate.
Qed.
Lemma upd_len {A} (l : list A) i x n : length l = n -> length (upd l i x) = n. Proof. intro H. rewrite upd_length. exact H. Qed.


Definition tss_after (key : nat) (z : Z) (o : option tss) : tss := match o with Some t => if (tget t key <? z)%Z then upd t key z else t | None => upd no_tss key z end.
Lemma memh_save_spec now pk relay key ts db : MInv db ->
  let db' := memh_save now pk relay key ts db in
  MInv db' /\ (forall pk' r', memh_entry db' pk' r' = if seqb pk' pk && seqb r' relay then Some (tss_after key (Z.min ts now) (memh_entry db pk relay)) else memh_entry db pk' r').
Proof.
  intros I db'. subst db'. unfold memh_save. rewrite capped_min. set (z := Z.min ts now).
  destruct (match find_index (seqb relay) (md_serial db) with Some i => (i, md_serial db) | None => (length (md_serial db), md_serial db ++ [relay]) end) as [ri serial] eqn:SR.
  assert (SN : NoDup serial /\ find_index (seqb relay) serial = Some ri /\ ri < length serial /\ length (md_serial db) <= length serial /\ forall r, r <> relay -> find_index (seqb r) serial = find_index (seqb r) (md_serial db)).
  { destruct I as [I1 I2]. destruct (find_index (seqb relay) (md_serial db)) as [i|] eqn:E; injection SR as <- <-.
    - pose proof (find_index_some _ _ _ E) as (x & X & _). pose proof (nth_lt _ _ _ X). auto 10.
    - pose proof (find_index_none _ _ E) as F. split.
      + apply (Permutation_NoDup (l := relay :: md_serial db)); [apply Permutation_cons_append|]. constructor; [|exact I1]. intro HI. apply F in HI. rewrite seqb_refl in HI. discriminate.
      + rewrite find_index_app, E. cbn [find_index]. rewrite seqb_refl. cbn [option_map]. rewrite Nat.add_0_r, app_length. cbn [length]. split; [reflexivity|]. split; [lia|]. split; [lia|]. intros r NR. rewrite find_index_app. cbn [find_index]. apply seqb_neq in NR. rewrite NR. cbn. destruct (find_index (seqb r) (md_serial db)); reflexivity. }
  destruct SN as (S1 & S2 & S3 & S4 & S5).
  set (entries := match assoc pk (md_by db) with Some l => l | None => [] end).
  assert (EN : NoDup (map fst entries) /\ forall e, In e entries -> fst e < length (md_serial db) /\ length (snd e) = 4).
  { unfold entries. destruct (assoc pk (md_by db)) as [l|] eqn:E; [exact (mi_entry _ I _ _ E)|]. split; [constructor|intros e []]. }
  destruct EN as [EN EL].
  assert (FAR : forall l, (forall e, In e l -> fst e < length (md_serial db)) -> entry_of (length (md_serial db)) l = None).
  { intros l H. unfold entry_of. destruct (find _ l) as [e|] eqn:Q; [|reflexivity]. apply find_some in Q as [Q1 Q2]. apply H in Q1. apply Nat.eqb_eq in Q2. lia. }
  assert (OLD : memh_entry db pk relay = option_map snd (entry_of ri entries)).
  { rewrite memh_entry_alt by exact I. unfold entries in *. destruct (find_index (seqb relay) (md_serial db)) as [i|] eqn:E; injection SR as <- <-.
    - destruct (assoc pk (md_by db)); reflexivity.
    - rewrite FAR; [destruct (assoc pk (md_by db)); reflexivity|]. intros e He. exact (proj1 (EL e He)). }
  assert (NEW : forall (es : list (nat * tss)) t1, NoDup (map fst es) -> (forall e, In e es -> fst e < length serial /\ length (snd e) = 4) ->
    (forall i, i <> ri -> entry_of i es = entry_of i entries) -> entry_of ri es = Some (ri, t1) ->
    let db' := mkMemDB serial (mset pk es (md_by db)) in
    MInv db' /\ (forall pk' r', memh_entry db' pk' r' = if seqb pk' pk && seqb r' relay then Some t1 else memh_entry db pk' r')).
  { intros es t1 N1 N2 N3 N4 db'. assert (M : MInv db').
    { constructor; [exact S1|]. cbn [md_by md_serial db']. intros p l. rewrite assoc_mset. destruct (seqb p pk); [intro Q; injection Q as <-; auto|]. intro Q. destruct (mi_entry _ I _ _ Q) as [Q1 Q2]. split; [exact Q1|]. intros e He. destruct (Q2 e He). split; [lia|assumption]. }
    split; [exact M|]. intros p r. rewrite memh_entry_alt by exact M. rewrite memh_entry_alt by exact I. cbn [md_by md_serial db']. rewrite assoc_mset. destruct (seqb_spec p pk) as [->|NP]; cbn [andb].
    - destruct (seqb_spec r relay) as [->|NR].
      + rewrite S2, N4. reflexivity.
      + rewrite (S5 r NR). destruct (find_index (seqb r) (md_serial db)) as [i|] eqn:E; [|reflexivity]. assert (NI : i <> ri).
        { intros ->. assert (find_index (seqb r) serial = Some ri) by (rewrite S5; assumption). apply NR. assert (nth ri serial [] = r) by (apply serial_nth; assumption). assert (nth ri serial [] = relay) by (apply serial_nth; assumption). congruence. }
        rewrite N3 by exact NI. unfold entries. destruct (assoc pk (md_by db)); reflexivity.
    - destruct (seqb_spec r relay) as [->|NR]; [|rewrite (S5 r NR); reflexivity]. rewrite S2. destruct (find_index (seqb relay) (md_serial db)) as [i|] eqn:E2; injection SR as <- <-; [reflexivity|].
      destruct (assoc p (md_by db)) as [l|] eqn:E; [|reflexivity]. rewrite FAR; [reflexivity|]. intros e He. apply (mi_entry _ I _ _ E) in He. tauto. }
  destruct (find_index (fun e => Nat.eqb (fst e) ri) entries) as [i|] eqn:FI.
  - apply entry_index in FI as (t & X1 & X2). rewrite OLD, X2. cbn [option_map snd tss_after]. rewrite X1. assert (LT : length t = 4) by (apply nth_error_In in X1; apply EL in X1; exact (proj2 X1)). destruct (Z.ltb_spec (tget t key) z) as [L|L].
    + apply (NEW _ (upd t key z)).
      * rewrite (upd_map fst _ _ _ _ X1) by reflexivity. exact EN.
      * intros e He. apply In_nth_error in He as [j He]. apply nth_upd in He as [[_ ->]|[_ He]]; [cbn; split; [exact S3|apply upd_len, LT]|]. apply nth_error_In in He. destruct (EL e He). split; [lia|assumption].
      * intros j NJ. rewrite (entry_upd _ _ _ _ _ j EN X1). apply Nat.eqb_neq in NJ. rewrite NJ. reflexivity.
      * rewrite (entry_upd _ _ _ _ _ ri EN X1), Nat.eqb_refl. reflexivity.
    + assert (X : assoc pk (md_by db) = Some entries). { unfold entries in *. destruct (assoc pk (md_by db)); [reflexivity|discriminate]. }
      destruct (NEW entries t EN) as [A1 A2]; [intros e He; destruct (EL e He); split; [lia|assumption]|reflexivity|exact X2|].
      assert (EQ : forall p, assoc p (mset pk entries (md_by db)) = assoc p (md_by db)) by (intro p; rewrite assoc_mset; destruct (seqb_spec p pk) as [->|_]; congruence).
      split.
      * constructor; [exact S1|]. cbn [md_by md_serial]. intros p l Q. apply (mi_entry _ A1 p l). cbn [md_by]. rewrite EQ. exact Q.
      * intros p r. rewrite <- A2. unfold memh_entry. cbn [md_by md_serial]. rewrite EQ. reflexivity.
  - apply entry_no_index in FI as [X1 X2]. rewrite OLD, X1. cbn [option_map tss_after]. apply (NEW _ (upd no_tss key z)).
    + rewrite map_app. cbn [map fst]. apply (Permutation_NoDup (l := ri :: map fst entries)); [apply Permutation_cons_append|]. constructor; assumption.
    + intros e He. apply in_app_or in He as [He|[<-|[]]]; [destruct (EL e He); split; [lia|assumption]|]. cbn [fst snd]. split; [exact S3|]. apply upd_len. reflexivity.
    + intros j NJ. unfold entry_of. rewrite find_app. cbn [find fst]. apply Nat.neq_sym, Nat.eqb_neq in NJ. rewrite NJ. destruct (find _ entries); reflexivity.
    + unfold entry_of in *. rewrite find_app, X1. cbn [find fst]. rewrite Nat.eqb_refl. reflexivity.
Qed.

(** Sorting the entries changes nothing but their order. *)
Lemma entry_in ri l e : NoDup (map fst l) -> In e l -> fst e = ri -> entry_of ri l = Some e.
Proof.
  unfold entry_of. induction l as [|x l IH]; intros N HI E; [destruct HI|]. cbn [find]. inversion N as [|y m N1 N2]; subst. destruct HI as [->|HI]; [rewrite Nat.eqb_refl; reflexivity|].
  destruct (Nat.eqb_spec (fst x) (fst e)) as [Q|_]; [|auto]. exfalso. apply N1. rewrite Q. apply in_map, HI.
Qed.
Lemma entry_perm ri l l' : NoDup (map fst l) -> Permutation l l' -> entry_of ri l' = entry_of ri l.
Proof.
  intros N P. assert (N' : NoDup (map fst l')) by (eapply Permutation_NoDup; [apply Permutation_map, P|exact N]).
  destruct (entry_of ri l) as [e|] eqn:E.
  - apply find_some in E as [E1 E2]. apply Nat.eqb_eq in E2. apply entry_in; [exact N'|eapply Permutation_in; eassumption|exact E2].
  - destruct (entry_of ri l') as [e|] eqn:E'; [|reflexivity]. apply find_some in E' as [E1 E2]. apply Nat.eqb_eq in E2. apply (Permutation_in e (Permutation_sym P)) in E1. rewrite (entry_in ri l e N E1 E2) in E. discriminate.
Qed.
Lemma memh_topn_state score sort now pk n db urls db' : sort_law sort -> MInv db -> memh_topn score sort now pk n db = Ok (urls, db') -> MInv db' /\ forall p r, memh_entry db' p r = memh_entry db p r.
Proof.
  intros SL I H. unfold memh_topn in H. destruct (n <? 0)%Z; [discriminate|]. destruct (assoc pk (md_by db)) as [l|] eqn:E; [|injection H as <- <-; auto].
  injection H as <- <-. set (l' := sort _ _ l). assert (P : Permutation l l') by (apply SL). destruct (mi_entry _ I _ _ E) as [E1 E2].
  assert (M : MInv (mkMemDB (md_serial db) (mset pk l' (md_by db)))).
  { constructor; cbn [md_serial md_by]; [exact (mi_serial _ I)|]. intros p l0. rewrite assoc_mset. destruct (seqb p pk); [|apply (mi_entry _ I)]. intro Q. injection Q as <-. split.
    - eapply Permutation_NoDup; [apply Permutation_map, P|exact E1].
    - intros e He. apply E2. eapply Permutation_in; [symmetry; exact P|exact He]. }
  split; [exact M|]. intros p r. rewrite !memh_entry_alt by assumption. cbn [md_serial md_by]. rewrite assoc_mset. destruct (find_index (seqb r) (md_serial db)) as [ri|]; [|reflexivity].
  destruct (seqb_spec p pk) as [->|_]; [|reflexivity]. rewrite E, (entry_perm ri l l' E1 P). reflexivity.
Qed.
Lemma memh_topn_best score sort now pk n db urls db' : sort_law sort -> MInv db -> (1 <= n)%Z -> memh_topn score sort now pk n db = Ok (urls, db') ->
  best_first (fun u => score now (match memh_entry db pk u with Some t => t | None => no_tss end)) (fun u => memh_entry db pk u <> None) (Z.to_nat n) urls.
Proof.
  intros SL I HN H. unfold memh_topn in H. destruct (Z.ltb_spec n 0); [lia|]. destruct (assoc pk (md_by db)) as [l|] eqn:E.
  - injection H as <- _. unfold take_go. destruct (Z.ltb_spec n 1); [lia|]. destruct (mi_entry _ I _ _ E) as [E1 E2].
    assert (ENT : forall e, In e l -> memh_entry db pk (nth (fst e) (md_serial db) []) = Some (snd e)).
    { intros e He. rewrite memh_entry_alt, E by exact I. destruct (E2 e He) as [L _]. assert (F : find_index (seqb (nth (fst e) (md_serial db) [])) (md_serial db) = Some (fst e)) by (apply serial_nth; [exact (mi_serial _ I)|exact L|reflexivity]).
      rewrite F, (entry_in (fst e) l e E1 He eq_refl). reflexivity. }
    eapply best_first_ext; [apply (top_best sort (fun e : nat * tss => nth (fst e) (md_serial db) []) (fun e => score now (snd e)) (fun u => score now (match memh_entry db pk u with Some t => t | None => no_tss end)) l (Z.to_nat n) SL)| |].
    + assert (IN : forall e, In e l -> fst e < length (md_serial db)) by (intros e He; apply E2, He). pose proof (mi_serial _ I) as NS. clear - E1 NS IN.
      induction l as [|x l IH]; cbn [map] in *; constructor; inversion E1 as [|y m N1 N2]; subst.
      * intro HI. apply in_map_iff in HI as (e & Q & HI). apply N1. assert (EQ : fst e = fst x); [|rewrite <- EQ; apply in_map, HI].
        rewrite NoDup_nth in NS. apply (NS (fst e) (fst x)); [apply IN; right; exact HI|apply IN; left; reflexivity|exact Q].
      * apply IH; [exact N2|]. intros e He. apply IN. right. exact He.
    + intros e He. rewrite ENT by exact He. reflexivity.
    + reflexivity.
    + intro u. cbn beta. rewrite in_map_iff. split.
      * intros (e & <- & He). rewrite ENT by exact He. discriminate.
      * intro Q. rewrite memh_entry_alt, E in Q by exact I. destruct (find_index (seqb u) (md_serial db)) as [ri|] eqn:F; [|exfalso; apply Q; reflexivity]. destruct (entry_of ri l) as [e|] eqn:EO; [|exfalso; apply Q; reflexivity].
        apply find_some in EO as [EO1 EO2]. apply Nat.eqb_eq in EO2. exists e. split; [|exact EO1]. apply serial_nth; [exact (mi_serial _ I)|apply E2, EO1|]. rewrite EO2. exact F.
  - injection H as <- _. constructor; cbn [length In]; [lia|constructor|tauto|constructor|]. intros u HU. exfalso. apply HU. unfold memh_entry. rewrite E. reflexivity.
Qed.

(** ** On disk: a key is the 32 bytes of the author and the relay; the value four 32-bit numbers. *)
Lemma of_le32_le32 z : (0 <= z < 2 ^ 32)%Z -> of_le32 (le32 z) = z.
Proof.
  intro H. unfold of_le32, le32. rewrite !val_byte_of by (change 256%N with (Z.to_N 256); rewrite <- Z2N.inj_lt; [apply Z.mod_pos_bound| |]; try lia; apply Z.mod_pos_bound; lia).
  rewrite !N2Z.inj_add, !N2Z.inj_mul, !N2Z.inj_add, !N2Z.inj_mul, !N2Z.inj_add, !N2Z.inj_mul. rewrite !Z2N.id by (apply Z.mod_pos_bound; lia). change (Z.of_N 256) with 256%Z.
  change (2 ^ (8 * 0))%Z with 1%Z. change (2 ^ (8 * 1))%Z with 256%Z. change (2 ^ (8 * 2))%Z with 65536%Z. change (2 ^ (8 * 3))%Z with 16777216%Z. change (2 ^ 32)%Z with 4294967296%Z in H. lia.
Qed.
Lemma le32_length z : length (le32 z) = 4. Proof. reflexivity. Qed.
Definition small (t : tss) : Prop := length t = 4 /\ forall k, (0 <= tget t k < 2 ^ 32)%Z.
Lemma tss4 t : length t = 4 -> t = [tget t 0; tget t 1; tget t 2; tget t 3].
Proof. destruct t as [|a [|b [|c [|d [|? ?]]]]]; try discriminate. reflexivity. Qed.
Lemma parse_encode t : small t -> kv_parse_value (kv_encode_value t) = t.
Proof.
  intros [L S]. rewrite (tss4 t L) at 2. unfold kv_parse_value, kv_encode_value.
  rewrite <- (of_le32_le32 (tget t 0)) at 5 by apply S. rewrite <- (of_le32_le32 (tget t 1)) at 5 by apply S. rewrite <- (of_le32_le32 (tget t 2)) at 5 by apply S. rewrite <- (of_le32_le32 (tget t 3)) at 5 by apply S. reflexivity.
Qed.
Definition author_key (pk : str) (b : str) : Prop := pk = hex_encode b /\ length b = 32.
Lemma key_of pk b relay : author_key pk b -> kv_encode_key pk relay = Ok (b ++ relay).
Proof. intros [-> L]. unfold kv_encode_key. rewrite (hex_prefix_decode _ _ (hex_decode_encode b)). rewrite L. reflexivity. Qed.
Lemma key_inj b b' r r' : length b = 32 -> length b' = 32 -> seqb (b ++ r) (b' ++ r') = seqb b b' && seqb r r'.
Proof.
  intros L L'. destruct (seqb_spec (b ++ r) (b' ++ r')) as [E|E].
  - assert (E1 : b = b'). { apply (f_equal (firstn 32)) in E. rewrite !firstn_app, L, L', Nat.sub_diag, !firstn_O, !app_nil_r in E. rewrite !firstn_all2 in E by lia. exact E. }
    subst b'. apply app_inv_head in E. subst. rewrite !seqb_refl. reflexivity.
  - symmetry. apply andb_false_iff. destruct (seqb_spec b b') as [->|]; [|auto]. destruct (seqb_spec r r') as [->|]; [congruence|auto].
Qed.
Definition kv_entry (m : list (str * str)) (b relay : str) : option tss := option_map kv_parse_value (assoc (b ++ relay) m).
Record VInv (m : list (str * str)) : Prop := mkVI {
  vi_nodup : NoDup (map fst m);
  vi_val : forall k v, In (k, v) m -> (exists t, small t /\ v = kv_encode_value t) /\ 32 <= length k
}.
Lemma kv_entry_small m b relay t : VInv m -> kv_entry m b relay = Some t -> small t.
Proof.
  intros I H. unfold kv_entry in H. destruct (assoc (b ++ relay) m) as [v|] eqn:E; [|discriminate]. apply assoc_in in E. apply (vi_val _ I) in E as [(t0 & S & ->) _]. injection H as <-. rewrite parse_encode by exact S. exact S.
Qed.
Definition kv_after (key : nat) (z : Z) (o : option tss) : option tss :=
  let t := match o with Some t => t | None => no_tss end in if (tget t key <? z)%Z then Some (upd t key z) else o.
Lemma small_none : small no_tss. Proof. split; [reflexivity|]. intro k. rewrite tget_none. lia. Qed.
Lemma small_upd t k z : small t -> k < 4 -> (0 <= z < 2 ^ 32)%Z -> small (upd t k z).
Proof. intros [L S] HK HZ. split; [apply upd_len, L|]. intro k'. rewrite tget_upd by lia. destruct (Nat.eqb k' k); [exact HZ|apply S]. Qed.
Lemma kvh_save_spec now pk b relay key ts m : VInv m -> author_key pk b -> key < 4 -> (0 <= ts)%Z -> (0 <= now < 2 ^ 32)%Z ->
  exists m', kvh_save now pk relay key ts m = Ok m' /\ VInv m' /\ forall b' r', length b' = 32 -> kv_entry m' b' r' = if seqb b' b && seqb r' relay then kv_after key (Z.min ts now) (kv_entry m b relay) else kv_entry m b' r'.
Proof.
  intros I A HK HT HN. unfold kvh_save. rewrite (key_of pk b relay A), capped_min. cbn [obind]. destruct A as [-> LB]. eexists. split; [reflexivity|]. set (z := Z.min ts now).
  assert (T : (match assoc (b ++ relay) m with Some v => kv_parse_value v | None => no_tss end) = match kv_entry m b relay with Some t => t | None => no_tss end) by (unfold kv_entry; destruct (assoc _ m); reflexivity).
  rewrite T. unfold kv_after. set (t := match kv_entry m b relay with Some t => t | None => no_tss end). assert (ST : small t).
  { unfold t. destruct (kv_entry m b relay) as [u|] eqn:E; [eapply kv_entry_small; eassumption|apply small_none]. }
  destruct (Z.ltb_spec (tget t key) z) as [L|L].
  - assert (SU : small (upd t key z)) by (apply small_upd; [exact ST|exact HK|]; destruct ST as [_ ST]; specialize (ST key); lia). split.
    + constructor; [apply mset_nodup, (vi_nodup _ I)|]. intros k v H. apply mset_in in H as [H|H]; [|exact (vi_val _ I _ _ H)]. injection H as -> ->. split; [eauto|]. rewrite app_length, LB. lia.
    + intros b' r' L'. unfold kv_entry at 1. rewrite assoc_mset, key_inj by assumption. destruct (seqb b' b && seqb r' relay); [cbn [option_map]; rewrite parse_encode by exact SU; reflexivity|reflexivity].
  - split; [exact I|]. intros b' r' L'. destruct (seqb_spec b' b) as [->|]; [|reflexivity]. destruct (seqb_spec r' relay) as [->|]; reflexivity.
Qed.
Lemma skip_key (b r : str) : length b = 32 -> skipn 32 (b ++ r) = r.
Proof. intro L. rewrite skipn_app, L, Nat.sub_diag, skipn_all2 by lia. reflexivity. Qed.
Lemma prefix_firstn (k p : str) : length p = 32 -> has_prefix k p = negb (Nat.ltb (length k) 32) && seqb (firstn 32 k) p.
Proof.
  intro L. rewrite <- L. clear L. revert k. induction p as [|c p IH]; intros [|d k]; try reflexivity. cbn [has_prefix length firstn seqb]. rewrite IH. rewrite (Ascii.eqb_sym c d).
  destruct (Nat.ltb_spec (length k) (length p)), (Nat.ltb_spec (S (length k)) (S (length p))); try lia; cbn [negb andb]; destruct (Ascii.eqb d c); reflexivity.
Qed.
Lemma kvh_topn_best score sort lmdb now pk b n m urls : sort_law sort -> VInv m -> author_key pk b -> kvh_topn score sort lmdb now pk n m = Ok urls ->
  best_first (fun u => score now (match kv_entry m b u with Some t => t | None => no_tss end)) (fun u => kv_entry m b u <> None) (Z.to_nat n) urls.
Proof.
  intros SL I [-> LB] H. unfold kvh_topn in H. destruct (Z.ltb_spec n 0); [discriminate|]. rewrite (hex_prefix_decode _ _ (hex_decode_encode b)) in H. cbv zeta in H. apply (f_equal (fun o => match o with Ok x => x | _ => [] end)) in H. cbv beta iota in H. subst urls.
  set (mine := filter _ m). assert (MINE : forall k v, In (k, v) mine <-> In (k, v) m /\ exists r, k = b ++ r).
  { intros k v. unfold mine. rewrite filter_In. split; intros [H1 H2]; split; try exact H1.
    - assert (Q : negb (Nat.ltb (length k) 32) && seqb (firstn 32 k) b = true) by (destruct lmdb; [exact H2|rewrite <- prefix_firstn by exact LB; exact H2]).
      apply andb_true_iff in Q as [_ Q]. apply seqb_eq in Q. exists (skipn 32 k). rewrite <- Q. symmetry. apply firstn_skipn.
    - destruct H2 as [r ->]. assert (Q : negb (Nat.ltb (length (b ++ r)) 32) && seqb (firstn 32 (b ++ r)) b = true).
      { rewrite firstn_app, LB, Nat.sub_diag, firstn_O, app_nil_r, firstn_all2 by lia. rewrite seqb_refl, app_length, LB. destruct (Nat.ltb_spec (32 + length r) 32); [lia|reflexivity]. }
      destruct lmdb; [exact Q|rewrite prefix_firstn by exact LB; exact Q]. }
  assert (NM : NoDup (map fst mine)).
  { pose proof (vi_nodup _ I) as N. unfold mine. clear - N. induction m as [|x m IH]; cbn [filter map] in *; [exact N|]. inversion N as [|y l N1 N2]; subst.
    destruct (let '(k, _) := x in _); cbn [map]; [constructor|]; auto. intro HI. apply N1. apply in_map_iff in HI as (y & Q & HI). apply filter_In in HI as [HI _]. rewrite <- Q. apply in_map, HI. }
  assert (ENT : forall k v, In (k, v) mine -> kv_entry m b (skipn 32 k) = Some (kv_parse_value v)).
  { intros k v HI. apply MINE in HI as [HI [r ->]]. rewrite skip_key by exact LB. unfold kv_entry. rewrite (in_assoc _ _ _ (vi_nodup _ I) HI). reflexivity. }
  eapply best_first_ext; [apply (top_best sort (fun p : str * str => let (k, _) := p in skipn 32 k) (fun p : str * str => score now (kv_parse_value (snd p))) (fun u => score now (match kv_entry m b u with Some t => t | None => no_tss end)) mine (Z.to_nat n) SL)| |].
  - assert (IN : forall k v, In (k, v) mine -> exists r, k = b ++ r) by (intros k v HI; apply MINE in HI; tauto). clear - NM IN LB.
    induction mine as [|[k v] l IH]; cbn [map] in *; constructor; inversion NM as [|y q N1 N2]; subst.
    + intro HI. apply in_map_iff in HI as ([k' v'] & Q & HI). apply N1. assert (EQ : k' = k); [|rewrite <- EQ; apply (in_map fst) in HI; exact HI].
      destruct (IN k v (or_introl eq_refl)) as [r ->]. destruct (IN k' v' (or_intror HI)) as [r' ->]. rewrite !skip_key in Q by exact LB. congruence.
    + apply IH; [exact N2|]. intros k' v' HI. apply (IN k' v'). right. exact HI.
  - intros [k v] He. cbn [snd]. rewrite (ENT k v He). reflexivity.
  - reflexivity.
  - intro u. cbn beta. rewrite in_map_iff. split.
    + intros ([k v] & <- & He). rewrite (ENT k v He). discriminate.
    + intro Q. unfold kv_entry in Q. destruct (assoc (b ++ u) m) as [v|] eqn:E; [|exfalso; apply Q; reflexivity]. exists (b ++ u, v). split; [apply skip_key, LB|]. apply MINE. split; [apply assoc_in, E|eauto].
Qed.
