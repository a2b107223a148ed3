(** Proofs about TagsModel.v *)
From Verif Require Import Base EventModel TagsModel.

(** The declarative reading of StartsWith. *)
Definition tag_starts (t p : tag) : Prop :=
  exists q l x, p = q ++ [l] /\ exists rest, t = q ++ x :: rest /\ exists y, x = l ++ y.

Lemma init_equal_spec n p t : n <= length p -> n <= length t ->
  (init_equal n p t = true <-> firstn n p = firstn n t).
Proof.
  revert p t; induction n as [|n IH]; intros p t Hp Ht.
  - cbn. tauto.
  - destruct p as [|x p]; [cbn in Hp; lia|]. destruct t as [|y t]; [cbn in Ht; lia|].
    cbn [init_equal firstn length] in *. destruct (seqb_spec x y) as [->|N]; cbn [negb].
    + rewrite IH by lia. split; [intros ->; reflexivity|intro E; injection E as E; exact E].
    + split; [discriminate|]. intro E; injection E; congruence.
Qed.

Lemma starts_with_ok t p : p <> [] -> exists b, starts_with t p = Ok b.
Proof.
  intro H. unfold starts_with. destruct p as [|x p]; [contradiction|].
  destruct (Nat.ltb (length t) (length (x :: p))); [eauto|].
  destruct (negb _); [eauto|]. cbn [length]. eauto.
Qed.

Lemma list_snoc {A} (p : list A) : p <> [] -> exists q l, p = q ++ [l].
Proof. intro H. destruct (exists_last H) as (q & l & E). eauto. Qed.

Lemma starts_with_spec t p : p <> [] -> (starts_with t p = Ok true <-> tag_starts t p).
Proof.
  intro H. destruct (list_snoc p H) as (q & l & ->). clear H.
  unfold starts_with. rewrite app_length. cbn [length].
  replace (length q + 1) with (S (length q)) by lia.
  cbn [Nat.sub]. rewrite Nat.sub_0_r.
  destruct (Nat.ltb_spec (length t) (S (length q))) as [Hl|Hl].
  - split; [discriminate|]. intros (q' & l' & x & E & rest & -> & _).
    apply app_inj_tail in E as [<- <-]. rewrite app_length in Hl. cbn in Hl. lia.
  - assert (Ht : exists a x rest, t = a ++ x :: rest /\ length a = length q).
    { destruct (nth_split t [] (n := length q)) as (a & b & E & La); [lia|]. eauto. }
    destruct Ht as (a & x & rest & -> & La).
    destruct (init_equal (length q) (q ++ [l]) (a ++ x :: rest)) eqn:E; cbn [negb].
    + apply init_equal_spec in E; [|rewrite app_length; lia|lia].
      rewrite <- La in E at 2.
      rewrite !firstn_app, !Nat.sub_diag, !firstn_all in E. cbn [firstn] in E. rewrite !app_nil_r in E. subst a.
      rewrite !app_nth2 by lia. rewrite !Nat.sub_diag. cbn [nth].
      split.
      * intro Hb. injection Hb as Hb. apply has_prefix_spec in Hb as (y & ->).
        exists q, l, (l ++ y). split; [reflexivity|]. exists rest. split; [reflexivity|]. eauto.
      * intros (q' & l' & x' & E & rest' & E2 & y & ->).
        apply app_inj_tail in E as [<- <-]. apply app_inv_head in E2. injection E2 as -> _.
        f_equal. apply has_prefix_app.
    + split; [discriminate|].
      intros (q' & l' & x' & E0 & rest' & E2 & _). exfalso.
      apply app_inj_tail in E0 as [<- <-].
      assert (init_equal (length q) (q ++ [l]) (a ++ x :: rest) = true); [|congruence].
      apply init_equal_spec; [rewrite app_length; lia|lia|].
      rewrite E2. rewrite !firstn_app, !Nat.sub_diag, !firstn_all. reflexivity.
Qed.

Definition sw (p : tag) (t : tag) : bool := match starts_with t p with Ok true => true | _ => false end.

Lemma sw_ok t p : p <> [] -> starts_with t p = Ok (sw p t).
Proof. intro H. destruct (starts_with_ok t p H) as [b E]. unfold sw. rewrite E. destruct b; reflexivity. Qed.

Lemma sw_spec t p : p <> [] -> (sw p t = true <-> tag_starts t p).
Proof.
  intro H. rewrite <- starts_with_spec by exact H. rewrite sw_ok by exact H.
  split; [intros ->; reflexivity|intro E; injection E; auto].
Qed.

Lemma get_first_find ts p : p <> [] -> get_first ts p = Ok (find (sw p) ts).
Proof.
  intro H. induction ts as [|t ts IH]; [reflexivity|].
  cbn [get_first find]. rewrite sw_ok by exact H. cbn [obind]. destruct (sw p t); [reflexivity|exact IH].
Qed.

Lemma get_all_filter ts p : p <> [] -> get_all ts p = Ok (filter (sw p) ts).
Proof.
  intro H. induction ts as [|t ts IH]; [reflexivity|].
  cbn [get_all filter]. rewrite sw_ok by exact H. cbn [obind]. rewrite IH. cbn [obind].
  destruct (sw p t); reflexivity.
Qed.

Lemma filter_out_filter ts p : p <> [] -> filter_out ts p = Ok (filter (fun t => negb (sw p t)) ts).
Proof.
  intro H. induction ts as [|t ts IH]; [reflexivity|].
  cbn [filter_out filter]. rewrite sw_ok by exact H. cbn [obind]. rewrite IH. cbn [obind].
  destruct (sw p t); reflexivity.
Qed.

(** ** In-place removal *)
Lemma set_nth_app {A} (a : list A) x y b : set_nth (length a) x (a ++ y :: b) = a ++ x :: b.
Proof. induction a as [|c a IH]; [reflexivity|]. cbn [length app set_nth]. rewrite IH. reflexivity. Qed.

Lemma removelast_firstn_len {A} (l : list A) : firstn (length l - 1) l = removelast l.
Proof. rewrite removelast_firstn_len. f_equal. lia. Qed.

Lemma in_place_loop fuel : forall done rest p, p <> [] -> length rest < fuel ->
  Forall (fun t => sw p t = false) done ->
  exists r, filter_in_place_loop fuel (length done) (done ++ rest) p = Ok r /\
    Permutation r (done ++ filter (fun t => negb (sw p t)) rest).
Proof.
  induction fuel as [|fuel IH]; intros done rest p Hp Hf Hd; [lia|].
  cbn [filter_in_place_loop]. rewrite app_length.
  destruct rest as [|x rest].
  - destruct (Nat.ltb_spec (length done) (length done + length (@nil tag))); [cbn in *; lia|].
    exists (done ++ []). split; [reflexivity|]. cbn [filter]. apply Permutation_refl.
  - destruct (Nat.ltb_spec (length done) (length done + length (x :: rest))); [|cbn in *; lia].
    rewrite app_nth2, Nat.sub_diag by lia. cbn [nth].
    rewrite sw_ok by exact Hp. cbn [obind].
    destruct (sw p x) eqn:Ex.
    + destruct rest as [|z rest0] eqn:Er.
      * (* the matching tag is the last one *)
        set (L := length done + length [x] - 1). assert (EL : L = length done) by (unfold L; cbn; lia).
        rewrite EL. rewrite set_nth_app. rewrite firstn_app, Nat.sub_diag, firstn_all. cbn [firstn].
        destruct (IH done [] p Hp) as (r & E & P); [cbn in *; lia|exact Hd|].
        exists r. split; [exact E|]. cbn [filter]. rewrite Ex. cbn [negb]. exact P.
      * assert (Hne : rest <> []) by (rewrite Er; discriminate). rewrite <- Er in *. clear Er z rest0.
        destruct (list_snoc rest Hne) as (m & y & ->).
        set (L := length done + length (x :: m ++ [y]) - 1).
        assert (EL : L = length done + S (length m)) by (unfold L; cbn [length]; rewrite app_length; cbn; lia).
        rewrite EL.
        assert (En : nth (length done + S (length m)) (done ++ x :: m ++ [y]) [] = y).
        { rewrite app_nth2 by lia. replace (length done + S (length m) - length done) with (S (length m)) by lia.
          cbn [nth]. rewrite app_nth2 by lia. rewrite Nat.sub_diag. reflexivity. }
        rewrite En, set_nth_app.
        assert (Ef : firstn (length done + S (length m)) (done ++ y :: m ++ [y]) = done ++ y :: m).
        { rewrite firstn_app_2. f_equal. cbn [firstn]. f_equal.
          rewrite firstn_app, Nat.sub_diag, firstn_all. cbn. apply app_nil_r. }
        rewrite Ef.
        destruct (IH done (y :: m) p Hp) as (r & E & P);
          [cbn [length] in *; rewrite app_length in Hf; cbn in Hf; lia|exact Hd|].
        exists r. split; [exact E|]. eapply perm_trans; [exact P|]. apply Permutation_app_head.
        cbn [filter]. rewrite Ex. cbn [negb]. rewrite filter_app. cbn [filter].
        destruct (negb (sw p y)); [|rewrite app_nil_r; apply Permutation_refl].
        apply Permutation_cons_append.
    + destruct (IH (done ++ [x]) rest p Hp) as (r & E & P).
      * cbn [length] in Hf; lia.
      * apply Forall_app; split; [exact Hd|repeat constructor; exact Ex].
      * exists r. rewrite app_length in E. cbn [length] in E. rewrite <- app_assoc in E. cbn [app] in E.
        replace (length done + 1) with (S (length done)) in E by lia. split; [exact E|].
        cbn [filter]. rewrite Ex. cbn [negb]. rewrite <- app_assoc in P. exact P.
Qed.

Lemma filter_out_in_place_perm ts p : p <> [] ->
  exists r, filter_out_in_place ts p = Ok r /\ Permutation r (filter (fun t => negb (sw p t)) ts).
Proof. intro H. apply (in_place_loop _ [] ts p H); [lia|constructor]. Qed.

(** ** Lookup *)
Definition named (key : str) (t : tag) : bool :=
  match t with k :: _ :: _ => seqb k key | _ => false end.
Definition named_value (key value : str) (t : tag) : bool :=
  match t with k :: v :: _ => seqb v value && seqb k key | _ => false end.

Lemma find_tag_find ts key : find_tag ts key = find (named key) ts.
Proof.
  induction ts as [|t ts IH]; [reflexivity|]. cbn [find_tag find].
  destruct t as [|k [|v t]]; cbn [named]; try exact IH. destruct (seqb k key); [reflexivity|exact IH].
Qed.

Lemma find_with_value_find ts key v : find_with_value ts key v = find (named_value key v) ts.
Proof.
  induction ts as [|t ts IH]; [reflexivity|]. cbn [find_with_value find].
  destruct t as [|k [|w t]]; cbn [named_value]; try exact IH. destruct (seqb w v && seqb k key); [reflexivity|exact IH].
Qed.

Lemma find_all_filter ts key : find_all ts key = filter (named key) ts.
Proof.
  induction ts as [|t ts IH]; [reflexivity|]. cbn [find_all filter].
  destruct t as [|k [|v t]]; cbn [named]; try exact IH. destruct (seqb k key); [rewrite IH; reflexivity|exact IH].
Qed.

Lemma find_app {A} (f : A -> bool) a b : find f (a ++ b) = match find f a with Some x => Some x | None => find f b end.
Proof. induction a as [|x a IH]; [reflexivity|]. cbn [app find]. destruct (f x); [reflexivity|exact IH]. Qed.

Lemma firstn_S_nth {A} (l : list A) n d : n < length l -> firstn (S n) l = firstn n l ++ [nth n l d].
Proof.
  revert n; induction l as [|x l IH]; intros n H; [cbn in H; lia|].
  destruct n; [reflexivity|]. cbn [firstn nth app]. f_equal. apply IH. cbn in H; lia.
Qed.

Lemma find_last_loop_find n ts key : n <= length ts ->
  find_last_loop n ts key = find (named key) (rev (firstn n ts)).
Proof.
  induction n as [|n IH]; intro H; [reflexivity|].
  rewrite (firstn_S_nth ts n []) by lia. rewrite rev_app_distr. cbn [rev app find find_last_loop].
  destruct (nth n ts []) as [|k [|v t]] eqn:E; cbn [named]; try (apply IH; lia).
  destruct (seqb k key); [reflexivity|apply IH; lia].
Qed.

Lemma find_last_find ts key : find_last ts key = find (named key) (rev ts).
Proof. unfold find_last. rewrite find_last_loop_find, firstn_all by lia. reflexivity. Qed.

Lemma find_last_value_loop_find n ts key v : n <= length ts ->
  find_last_value_loop n ts key v = find (named_value key v) (rev (firstn n ts)).
Proof.
  induction n as [|n IH]; intro H; [reflexivity|].
  rewrite (firstn_S_nth ts n []) by lia. rewrite rev_app_distr. cbn [rev app find find_last_value_loop].
  destruct (nth n ts []) as [|k [|w t]] eqn:E; cbn [named_value]; try (apply IH; lia).
  destruct (seqb w v && seqb k key); [reflexivity|apply IH; lia].
Qed.

Lemma find_last_with_value_find ts key v : find_last_with_value ts key v = find (named_value key v) (rev ts).
Proof. unfold find_last_with_value. rewrite find_last_value_loop_find, firstn_all by lia. reflexivity. Qed.

Lemma get_d_find ts : get_d ts = match find (named (B "d")) ts with Some t => nth 1 t [] | None => [] end.
Proof.
  induction ts as [|t ts IH]; [reflexivity|]. cbn [get_d find].
  destruct t as [|k [|v t]]; cbn [named]; try exact IH. destruct (seqb k (B "d")); [reflexivity|exact IH].
Qed.

(** find returns the first match: the list splits around it. *)
Lemma find_split {A} (f : A -> bool) l x :
  find f l = Some x <-> exists a b, l = a ++ x :: b /\ f x = true /\ Forall (fun y => f y = false) a.
Proof.
  induction l as [|y l IH]; cbn [find].
  - split; [discriminate|]. intros (a & b & E & _). destruct a; discriminate.
  - destruct (f y) eqn:E.
    + split.
      * intro H; injection H as ->. exists [], l. repeat split; [exact E|constructor].
      * intros (a & b & E2 & Hx & Ha). destruct a as [|z a].
        -- injection E2 as -> _. reflexivity.
        -- injection E2 as -> _. inversion Ha; congruence.
    + rewrite IH. split.
      * intros (a & b & -> & Hx & Ha). exists (y :: a), b. repeat split; [exact Hx|constructor; assumption].
      * intros (a & b & E2 & Hx & Ha). destruct a as [|z a].
        -- injection E2 as -> _. congruence.
        -- injection E2 as -> ->. inversion Ha; subst. exists a, b. repeat split; assumption.
Qed.

Lemma find_none_iff {A} (f : A -> bool) l : find f l = None <-> Forall (fun y => f y = false) l.
Proof.
  induction l as [|y l IH]; cbn [find]; [split; constructor|].
  destruct (f y) eqn:E.
  - split; [discriminate|]. intro H; inversion H; congruence.
  - rewrite IH. split; [intro; constructor; assumption|intro H; inversion H; assumption].
Qed.

Lemma contains_any_spec ts name values :
  contains_any ts name values = true <->
  exists t v rest, In t ts /\ t = name :: v :: rest /\ In v values.
Proof.
  induction ts as [|t ts IH]; cbn [contains_any].
  - split; [discriminate|]. intros (t & v & r & [] & _).
  - assert (Hrec : contains_any ts name values = true <->
       exists t0 v rest, In t0 ts /\ t0 = name :: v :: rest /\ In v values) by exact IH.
    assert (Hskip : (forall v rest, t = name :: v :: rest -> ~ In v values) ->
       (contains_any ts name values = true <->
        exists t0 v rest, In t0 (t :: ts) /\ t0 = name :: v :: rest /\ In v values)).
    { intro Hn. rewrite Hrec. split.
      - intros (t0 & v & r & H1 & H2 & H3). exists t0, v, r. split; [right; exact H1|auto].
      - intros (t0 & v & r & [H1|H1] & H2 & H3).
        + subst t0. exfalso. eapply Hn; eauto.
        + exists t0, v, r. auto. }
    destruct t as [|k [|v t]].
    + apply Hskip. intros; discriminate.
    + apply Hskip. intros; discriminate.
    + destruct (seqb_spec k name) as [->|N]; cbn [negb].
      * destruct (smem v values) eqn:E.
        -- apply smem_In in E. split; [|reflexivity]. intros _. exists (name :: v :: t), v, t.
           split; [left; reflexivity|auto].
        -- apply Hskip. intros v' r E2. injection E2 as <- _. intro Hin. apply smem_In in Hin. congruence.
      * apply Hskip. intros v' r E2. injection E2 as -> _. contradiction.
Qed.
