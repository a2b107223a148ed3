(** C11: Filter.Clone (/repo/filter.go:143-171) over a heap with shared slices, maps and pointers. *)
From Verif Require Import Base EventModel TagsModel TagsProofs FilterModel FilterProofs.

(** Memory cells: the array under a []string or []int, the target of a *Timestamp, a TagMap.
    Simplification: a slice value is the address of an array that it covers entirely (nil slice: None). *)
Definition addr := nat.
Inductive cell :=
| CStrs (l : list str)
| CInts (l : list Z)
| CTime (t : Z)
| CMap (m : list (str * option addr)).
Definition heap := list cell.

(** filter.go:11-23: what the struct itself holds. *)
Record hfilter := mkH {
  h_ids : option addr; h_kinds : option addr; h_authors : option addr; h_tags : option addr;
  h_since : option addr; h_until : option addr; h_limit : Z; h_search : str; h_limit_zero : bool }.

Definition get_strs (h : heap) (a : addr) : list str := match nth_error h a with Some (CStrs l) => l | _ => [] end.
Definition get_ints (h : heap) (a : addr) : list Z := match nth_error h a with Some (CInts l) => l | _ => [] end.
Definition get_time (h : heap) (a : addr) : Z := match nth_error h a with Some (CTime t) => t | _ => 0%Z end.
Definition get_map (h : heap) (a : addr) : list (str * option addr) := match nth_error h a with Some (CMap m) => m | _ => [] end.

(** The contents reached from a filter value. *)
Definition contents (h : heap) (f : hfilter) : nfilter :=
  mkFilter (option_map (get_strs h) (h_ids f)) (option_map (get_ints h) (h_kinds f))
    (option_map (get_strs h) (h_authors f))
    (match h_tags f with None => [] | Some a => map (fun p => (fst p, option_map (get_strs h) (snd p))) (get_map h a) end)
    (option_map (get_time h) (h_since f)) (option_map (get_time h) (h_until f))
    (h_limit f) (h_search f) (h_limit_zero f).

Definition alloc (h : heap) (c : cell) : heap * addr := (h ++ [c], length h).

(** slices.Clone: nil stays nil, otherwise a new array *)
Definition clone_strs (h : heap) (o : option addr) : heap * option addr :=
  match o with None => (h, None) | Some a => let '(h', b) := alloc h (CStrs (get_strs h a)) in (h', Some b) end.
Definition clone_ints (h : heap) (o : option addr) : heap * option addr :=
  match o with None => (h, None) | Some a => let '(h', b) := alloc h (CInts (get_ints h a)) in (h', Some b) end.
(** filter.go:160-168: since := *ef.Since; clone.Since = &since *)
Definition clone_time (h : heap) (o : option addr) : heap * option addr :=
  match o with None => (h, None) | Some a => let '(h', b) := alloc h (CTime (get_time h a)) in (h', Some b) end.

(** filter.go:155-157 *)
Fixpoint clone_entries (h : heap) (m : list (str * option addr)) : heap * list (str * option addr) :=
  match m with
  | [] => (h, [])
  | (k, o) :: m' => let '(h1, o') := clone_strs h o in
                    let '(h2, r) := clone_entries h1 m' in (h2, (k, o') :: r)
  end.
(** filter.go:153-158 *)
Definition clone_map (h : heap) (o : option addr) : heap * option addr :=
  match o with
  | None => (h, None)
  | Some a => let '(h1, r) := clone_entries h (get_map h a) in
              let '(h2, b) := alloc h1 (CMap r) in (h2, Some b)
  end.

(** filter.go:143-171 *)
Definition clone (h : heap) (f : hfilter) : heap * hfilter :=
  let '(h1, ids) := clone_strs h (h_ids f) in
  let '(h2, authors) := clone_strs h1 (h_authors f) in
  let '(h3, kinds) := clone_ints h2 (h_kinds f) in
  let '(h4, tags) := clone_map h3 (h_tags f) in
  let '(h5, since) := clone_time h4 (h_since f) in
  let '(h6, until) := clone_time h5 (h_until f) in
  (h6, mkH ids kinds authors tags since until (h_limit f) (h_search f) (h_limit_zero f)).

(** What a program can later do through a filter value: element writes, map updates, pointer writes.
    A value stored in the map is a newly made slice (storing a slice of the other filter would be
    sharing introduced by the program, not by Clone). *)
Inductive write :=
| WIds (i : nat) (v : str) | WAuthors (i : nat) (v : str) | WKinds (i : nat) (v : Z)
| WSince (t : Z) | WUntil (t : Z)
| WTagItem (k : str) (i : nat) (v : str)
| WTagSet (k : str) (vs : option (list str))
| WTagDelete (k : str).

Definition put (h : heap) (a : addr) (c : cell) : heap := set_nth a c h.
Definition remove_key {V} (k : str) (m : list (str * V)) : list (str * V) := filter (fun p => negb (seqb k (fst p))) m.

Definition do_write (h : heap) (f : hfilter) (w : write) : heap :=
  match w with
  | WIds i v => match h_ids f with Some a => put h a (CStrs (set_nth i v (get_strs h a))) | None => h end
  | WAuthors i v => match h_authors f with Some a => put h a (CStrs (set_nth i v (get_strs h a))) | None => h end
  | WKinds i v => match h_kinds f with Some a => put h a (CInts (set_nth i v (get_ints h a))) | None => h end
  | WSince t => match h_since f with Some a => put h a (CTime t) | None => h end
  | WUntil t => match h_until f with Some a => put h a (CTime t) | None => h end
  | WTagItem k i v =>
    match h_tags f with
    | Some a => match assoc k (get_map h a) with
                | Some (Some b) => put h b (CStrs (set_nth i v (get_strs h b)))
                | _ => h
                end
    | None => h
    end
  | WTagSet k vs =>
    match h_tags f with
    | Some a =>
      let '(h1, o) := match vs with None => (h, None) | Some l => let '(h', b) := alloc h (CStrs l) in (h', Some b) end in
      put h1 a (CMap ((k, o) :: remove_key k (get_map h a)))
    | None => h (* assignment to a nil map panics in Go *)
    end
  | WTagDelete k =>
    match h_tags f with Some a => put h a (CMap (remove_key k (get_map h a))) | None => h end
  end.

(** Addresses reachable from a filter. *)
Definition opt_list (o : option addr) : list addr := match o with Some a => [a] | None => [] end.
Definition reach (h : heap) (f : hfilter) : list addr :=
  opt_list (h_ids f) ++ opt_list (h_kinds f) ++ opt_list (h_authors f) ++ opt_list (h_since f) ++ opt_list (h_until f) ++
  match h_tags f with None => [] | Some a => a :: flat_map (fun p => opt_list (snd p)) (get_map h a) end.

(** ** Lemmas *)
Definition agree (h h' : heap) (l : list addr) : Prop := forall a, In a l -> nth_error h' a = nth_error h a.

Lemma get_strs_agree h h' a : nth_error h' a = nth_error h a -> get_strs h' a = get_strs h a.
Proof. unfold get_strs. intros ->. reflexivity. Qed.
Lemma get_ints_agree h h' a : nth_error h' a = nth_error h a -> get_ints h' a = get_ints h a.
Proof. unfold get_ints. intros ->. reflexivity. Qed.
Lemma get_time_agree h h' a : nth_error h' a = nth_error h a -> get_time h' a = get_time h a.
Proof. unfold get_time. intros ->. reflexivity. Qed.
Lemma get_map_agree h h' a : nth_error h' a = nth_error h a -> get_map h' a = get_map h a.
Proof. unfold get_map. intros ->. reflexivity. Qed.

Lemma in_reach_map h f a k b : h_tags f = Some a -> In (k, Some b) (get_map h a) -> In b (reach h f).
Proof.
  intros E H. unfold reach. rewrite E. repeat (apply in_or_app; right). right.
  apply in_flat_map. exists (k, Some b). split; [exact H|left; reflexivity].
Qed.

Lemma reach_agree h h' f : agree h h' (reach h f) -> reach h' f = reach h f.
Proof.
  intro H. unfold reach. do 5 f_equal. destruct (h_tags f) as [a|] eqn:E; [|reflexivity].
  rewrite (get_map_agree h h' a); [reflexivity|]. apply H. unfold reach. rewrite E.
  repeat (apply in_or_app; right). left. reflexivity.
Qed.

Lemma contents_agree h h' f : agree h h' (reach h f) -> contents h' f = contents h f.
Proof.
  intro H. unfold contents.
  assert (H1 : forall o, incl (opt_list o) (reach h f) -> option_map (get_strs h') o = option_map (get_strs h) o).
  { intros [a|] Hi; [|reflexivity]. cbn. f_equal. apply get_strs_agree, H, Hi. left. reflexivity. }
  assert (H2 : forall o, incl (opt_list o) (reach h f) -> option_map (get_ints h') o = option_map (get_ints h) o).
  { intros [a|] Hi; [|reflexivity]. cbn. f_equal. apply get_ints_agree, H, Hi. left. reflexivity. }
  assert (H3 : forall o, incl (opt_list o) (reach h f) -> option_map (get_time h') o = option_map (get_time h) o).
  { intros [a|] Hi; [|reflexivity]. cbn. f_equal. apply get_time_agree, H, Hi. left. reflexivity. }
  f_equal.
  - apply H1. intros x Hx. unfold reach. apply in_or_app; left; exact Hx.
  - apply H2. intros x Hx. unfold reach. apply in_or_app; right; apply in_or_app; left; exact Hx.
  - apply H1. intros x Hx. unfold reach. do 2 (apply in_or_app; right); apply in_or_app; left; exact Hx.
  - destruct (h_tags f) as [a|] eqn:E; [|reflexivity].
    rewrite (get_map_agree h h' a).
    2:{ apply H. unfold reach. rewrite E. repeat (apply in_or_app; right). left. reflexivity. }
    apply map_ext_in. intros [k o] Hi. cbn [fst snd]. f_equal. apply H1.
    intros x Hx. destruct o as [b|]; [|contradiction]. destruct Hx as [<-|[]]. eapply in_reach_map; eauto.
  - apply H3. intros x Hx. unfold reach. do 3 (apply in_or_app; right); apply in_or_app; left; exact Hx.
  - apply H3. intros x Hx. unfold reach. do 4 (apply in_or_app; right); apply in_or_app; left; exact Hx.
Qed.

Lemma nth_error_set_nth_other {A} (l : list A) i j x : i <> j -> nth_error (set_nth i x l) j = nth_error l j.
Proof.
  revert i j; induction l as [|y l IH]; intros i j H; [destruct i; reflexivity|].
  destruct i, j; cbn [set_nth nth_error]; try reflexivity; [contradiction|]. apply IH. congruence.
Qed.

Lemma set_nth_length {A} (l : list A) i x : length (set_nth i x l) = length l.
Proof. revert i; induction l as [|y l IH]; intros [|i]; cbn [set_nth length]; auto. Qed.

Lemma nth_error_set_nth_same {A} (l : list A) i x : i < length l -> nth_error (set_nth i x l) i = Some x.
Proof.
  revert i; induction l as [|y l IH]; intros i H; [cbn in H; lia|].
  destruct i; [reflexivity|]. cbn [set_nth nth_error]. apply IH. cbn in H. lia.
Qed.

(** A write changes only cells reachable from its filter (and cells that did not exist). *)
Lemma opt_in_reach h f o a :
  o = Some a -> In o [h_ids f; h_kinds f; h_authors f; h_since f; h_until f; h_tags f] -> In a (reach h f).
Proof.
  intros -> H. cbn [In] in H. unfold reach.
  destruct H as [E|[E|[E|[E|[E|[E|[]]]]]]]; rewrite E; cbn [opt_list]; rewrite ?in_app_iff; cbn [In]; tauto.
Qed.

Lemma write_frame h f w : (forall a, In a (reach h f) -> a < length h) ->
  forall a, a < length h -> ~ In a (reach h f) -> nth_error (do_write h f w) a = nth_error h a.
Proof.
  intros Hlt a Ha Hn.
  assert (P : forall o c, In o [h_ids f; h_kinds f; h_authors f; h_since f; h_until f; h_tags f] -> forall b, o = Some b ->
     nth_error (put h b c) a = nth_error h a).
  { intros o c Hi b E. unfold put. apply nth_error_set_nth_other. intros ->. apply Hn. eapply opt_in_reach; eauto. }
  destruct w; cbn [do_write].
  - destruct (h_ids f) as [b|] eqn:E; [|reflexivity]. apply (P (Some b)); [|reflexivity]. cbn [In]. tauto.
  - destruct (h_authors f) as [b|] eqn:E; [|reflexivity]. apply (P (Some b)); [|reflexivity]. cbn [In]. tauto.
  - destruct (h_kinds f) as [b|] eqn:E; [|reflexivity]. apply (P (Some b)); [|reflexivity]. cbn [In]. tauto.
  - destruct (h_since f) as [b|] eqn:E; [|reflexivity]. apply (P (Some b)); [|reflexivity]. cbn [In]. tauto.
  - destruct (h_until f) as [b|] eqn:E; [|reflexivity]. apply (P (Some b)); [|reflexivity]. cbn [In]. tauto.
  - destruct (h_tags f) as [b|] eqn:E; [|reflexivity].
    destruct (assoc k (get_map h b)) as [[c|]|] eqn:Ea; try reflexivity.
    unfold put. apply nth_error_set_nth_other. intros ->. apply Hn.
    eapply in_reach_map; [exact E|]. apply assoc_In in Ea. exact Ea.
  - destruct (h_tags f) as [b|] eqn:E; [|reflexivity].
    assert (b <> a) by (intros ->; apply Hn; eapply opt_in_reach; [reflexivity|]; rewrite E; cbn [In]; tauto).
    destruct vs as [l|]; cbn [alloc]; unfold put; rewrite nth_error_set_nth_other by exact H; [|reflexivity].
    apply nth_error_app1, Ha.
  - destruct (h_tags f) as [b|] eqn:E; [|reflexivity]. apply (P (Some b)); [|reflexivity]. cbn [In]. tauto.
Qed.

Lemma write_length h f w : length h <= length (do_write h f w).
Proof.
  destruct w as [ | | | | | | k vs | ]; cbn [do_write]; unfold put; try destruct vs; cbn [alloc];
    repeat (match goal with |- context[match ?x with _ => _ end] => destruct x end);
    rewrite ?set_nth_length, ?app_length; cbn [length]; lia.
Qed.

Lemma get_map_put h m l x : In x (get_map (put h m (CMap l)) m) -> In x l.
Proof.
  unfold get_map, put. destruct (Nat.lt_ge_cases m (length h)) as [Hl|Hl].
  - rewrite nth_error_set_nth_same by exact Hl. auto.
  - destruct (nth_error (set_nth m (CMap l) h) m) eqn:E; [|contradiction].
    exfalso. assert (H : nth_error (set_nth m (CMap l) h) m <> None) by congruence.
    apply nth_error_Some in H. rewrite set_nth_length in H. lia.
Qed.

(** After a write through f, f reaches only what it reached before or a new cell. *)
Lemma write_reach h f w : forall a, In a (reach (do_write h f w) f) -> In a (reach h f) \/ (a = length h /\ a < length (do_write h f w)).
Proof.
  intros a Hin.
  assert (Hbase : forall x, (In a (opt_list (h_ids f) ++ opt_list (h_kinds f) ++ opt_list (h_authors f) ++ opt_list (h_since f) ++ opt_list (h_until f)) -> In a (reach h f)) /\ (h_tags f = Some x -> a = x -> In a (reach h f))).
  { intro x. split.
    - unfold reach. rewrite !in_app_iff. tauto.
    - intros E ->. eapply opt_in_reach; [reflexivity|]. rewrite E. cbn [In]. tauto. }
  unfold reach in Hin at 1. rewrite !in_app_iff in Hin.
  assert (Hcases : In a (opt_list (h_ids f) ++ opt_list (h_kinds f) ++ opt_list (h_authors f) ++ opt_list (h_since f) ++ opt_list (h_until f)) \/
     exists m, h_tags f = Some m /\ (a = m \/ exists k, In (k, Some a) (get_map (do_write h f w) m))).
  { rewrite !in_app_iff.
    destruct Hin as [H|[H|[H|[H|[H|H]]]]]; try tauto.
    destruct (h_tags f) as [m|]; [|contradiction]. right. exists m. split; [reflexivity|].
    destruct H as [<-|H]; [left; reflexivity|]. right. apply in_flat_map in H as ([k o] & Hi & Ho). cbn [snd] in Ho.
    destruct o as [b|]; [|contradiction]. destruct Ho as [<-|[]]. eauto. }
  destruct Hcases as [H|(m & Em & [->|(k & Hk)])].
  - left. apply (proj1 (Hbase 0)), H.
  - left. apply (proj2 (Hbase m)); auto.
  - (* entries of the map after the write *)
    assert (Hold : In (k, Some a) (get_map h m) -> In a (reach h f)) by (intro; eapply in_reach_map; eauto).
    assert (Hput : forall b c, (forall m', c <> CMap m') ->
              In (k, Some a) (get_map (put h b c) m) -> In (k, Some a) (get_map h m)).
    { intros b c Hc. unfold get_map, put. destruct (Nat.eq_dec b m) as [->|N].
      - destruct (Nat.lt_ge_cases m (length h)).
        + rewrite nth_error_set_nth_same by assumption. destruct c; try contradiction. exfalso. eapply Hc; reflexivity.
        + assert (nth_error (set_nth m c h) m = None) as -> by (apply nth_error_None; rewrite set_nth_length; lia). contradiction.
      - rewrite nth_error_set_nth_other by exact N. auto. }
    destruct w; cbn [do_write] in Hk;
      try (left; apply Hold; match type of Hk with context[match ?o with _ => _ end] => destruct o end;
           [eapply Hput; [|exact Hk]; intros; discriminate|exact Hk]; fail).
    + rewrite Em in Hk. left. apply Hold. destruct (assoc k0 (get_map h m)) as [[b|]|]; try exact Hk.
      eapply Hput; [|exact Hk]. intros; discriminate.
    + rewrite Em in Hk. destruct vs as [l|]; cbn [alloc] in Hk; apply get_map_put in Hk; destruct Hk as [Hk|Hk].
      * injection Hk as _ <-. right. split; [reflexivity|]. cbn [do_write]. rewrite Em. cbn [alloc].
        unfold put. rewrite set_nth_length, app_length. cbn. lia.
      * left. apply Hold. apply filter_In in Hk. tauto.
      * discriminate.
      * left. apply Hold. apply filter_In in Hk. tauto.
    + rewrite Em in Hk. apply get_map_put in Hk. left. apply Hold. apply filter_In in Hk. tauto.
Qed.

(** The invariant: both filters live in the heap and share nothing. *)
Definition separate (h : heap) (f g : hfilter) : Prop :=
  (forall a, In a (reach h f) -> a < length h) /\ (forall a, In a (reach h g) -> a < length h) /\
  (forall a, In a (reach h f) -> In a (reach h g) -> False).

Lemma separate_sym h f g : separate h f g -> separate h g f.
Proof. intros (A & B & C). repeat split; auto. intros a H1 H2. eapply C; eauto. Qed.

Lemma write_other h f g w : separate h f g ->
  contents (do_write h f w) g = contents h g /\ separate (do_write h f w) f g.
Proof.
  intros (Hf & Hg & Hd).
  assert (Ag : agree h (do_write h f w) (reach h g)).
  { intros a Ha. apply write_frame; [exact Hf|apply Hg, Ha|]. intro H. eapply Hd; eauto. }
  split; [apply contents_agree, Ag|].
  pose proof (reach_agree _ _ _ Ag) as HR. pose proof (write_length h f w) as HL.
  repeat split.
  - intros a Ha. apply write_reach in Ha as [Ha|[_ Ha]]; [|exact Ha]. specialize (Hf a Ha). lia.
  - intros a Ha. rewrite HR in Ha. specialize (Hg a Ha). lia.
  - intros a H1 H2. rewrite HR in H2. apply write_reach in H1 as [H1|[H1 _]]; [eapply Hd; eauto|].
    specialize (Hg a H2). lia.
Qed.

(** Sequences of writes: true goes through the first filter, false through the second. *)
Fixpoint run_writes (h : heap) (f g : hfilter) (ws : list (bool * write)) : heap :=
  match ws with
  | [] => h
  | (s, w) :: ws' => run_writes (do_write h (if s then f else g) w) f g ws'
  end.

Lemma run_separate ws : forall h f g, separate h f g -> separate (run_writes h f g ws) f g.
Proof.
  induction ws as [|[s w] ws IH]; intros h f g H; [exact H|]. cbn [run_writes]. apply IH.
  destruct s; [apply write_other, H|]. apply separate_sym, write_other, separate_sym, H.
Qed.

Lemma run_one_side ws : forall h f g, separate h f g -> Forall (fun p => fst p = true) ws ->
  contents (run_writes h f g ws) g = contents h g.
Proof.
  induction ws as [|[s w] ws IH]; intros h f g H Ht; [reflexivity|].
  inversion Ht as [|? ? E Ht']; subst. cbn [fst] in E. subst s. cbn [run_writes].
  destruct (write_other h f g w H) as [E1 E2]. rewrite IH by assumption. exact E1.
Qed.

(** ** Clone *)
(** A stage of clone: the heap is extended, the result is new and has the same contents. *)
Definition ext (h h' : heap) : Prop := exists t, h' = h ++ t.
Lemma ext_refl h : ext h h. Proof. exists []. rewrite app_nil_r. reflexivity. Qed.
Lemma ext_trans a b c : ext a b -> ext b c -> ext a c.
Proof. intros (t & ->) (u & ->). exists (t ++ u). rewrite app_assoc. reflexivity. Qed.
Lemma ext_length a b : ext a b -> length a <= length b.
Proof. intros (t & ->). rewrite app_length. lia. Qed.
Lemma ext_nth a b i : ext a b -> i < length a -> nth_error b i = nth_error a i.
Proof. intros (t & ->) H. apply nth_error_app1, H. Qed.
Lemma ext_get_strs a b i : ext a b -> i < length a -> get_strs b i = get_strs a i.
Proof. intros. apply get_strs_agree, ext_nth; assumption. Qed.
Lemma ext_get_ints a b i : ext a b -> i < length a -> get_ints b i = get_ints a i.
Proof. intros. apply get_ints_agree, ext_nth; assumption. Qed.
Lemma ext_get_time a b i : ext a b -> i < length a -> get_time b i = get_time a i.
Proof. intros. apply get_time_agree, ext_nth; assumption. Qed.
Lemma ext_get_map a b i : ext a b -> i < length a -> get_map b i = get_map a i.
Proof. intros. apply get_map_agree, ext_nth; assumption. Qed.

Lemma alloc_spec h c h' a : alloc h c = (h', a) -> ext h h' /\ a = length h /\ a < length h' /\ nth_error h' a = Some c.
Proof.
  intro E. unfold alloc in E. injection E as <- <-. split; [exists [c]; reflexivity|].
  split; [reflexivity|]. rewrite app_length. cbn. split; [lia|].
  rewrite nth_error_app2, Nat.sub_diag by lia. reflexivity.
Qed.

(** o' is a new cell (at or after n) *)
Definition fresh_in (n : nat) (h' : heap) (o' : option addr) : Prop :=
  forall a, o' = Some a -> n <= a < length h'.

Lemma clone_strs_spec h o h' o' : clone_strs h o = (h', o') ->
  ext h h' /\ fresh_in (length h) h' o' /\ option_map (get_strs h') o' = option_map (get_strs h) o.
Proof.
  destruct o as [a|]; cbn [clone_strs].
  - destruct (alloc h (CStrs (get_strs h a))) as [h1 b] eqn:E. intro H; injection H as <- <-.
    destruct (alloc_spec _ _ _ _ E) as (X & -> & L & N). split; [exact X|]. split.
    + intros c Hc; injection Hc as <-. lia.
    + cbn. f_equal. unfold get_strs at 1. rewrite N. reflexivity.
  - intro H; injection H as <- <-. split; [apply ext_refl|]. split; [intros a E; discriminate|reflexivity].
Qed.

Lemma clone_ints_spec h o h' o' : clone_ints h o = (h', o') ->
  ext h h' /\ fresh_in (length h) h' o' /\ option_map (get_ints h') o' = option_map (get_ints h) o.
Proof.
  destruct o as [a|]; cbn [clone_ints].
  - destruct (alloc h (CInts (get_ints h a))) as [h1 b] eqn:E. intro H; injection H as <- <-.
    destruct (alloc_spec _ _ _ _ E) as (X & -> & L & N). split; [exact X|]. split.
    + intros c Hc; injection Hc as <-. lia.
    + cbn. f_equal. unfold get_ints at 1. rewrite N. reflexivity.
  - intro H; injection H as <- <-. split; [apply ext_refl|]. split; [intros a E; discriminate|reflexivity].
Qed.

Lemma clone_time_spec h o h' o' : clone_time h o = (h', o') ->
  ext h h' /\ fresh_in (length h) h' o' /\ option_map (get_time h') o' = option_map (get_time h) o.
Proof.
  destruct o as [a|]; cbn [clone_time].
  - destruct (alloc h (CTime (get_time h a))) as [h1 b] eqn:E. intro H; injection H as <- <-.
    destruct (alloc_spec _ _ _ _ E) as (X & -> & L & N). split; [exact X|]. split.
    + intros c Hc; injection Hc as <-. lia.
    + cbn. f_equal. unfold get_time at 1. rewrite N. reflexivity.
  - intro H; injection H as <- <-. split; [apply ext_refl|]. split; [intros a E; discriminate|reflexivity].
Qed.

Definition read_entries (h : heap) (m : list (str * option addr)) :=
  map (fun p => (fst p, option_map (get_strs h) (snd p))) m.

Lemma clone_entries_spec m : forall h h' r, clone_entries h m = (h', r) ->
  (forall k a, In (k, Some a) m -> a < length h) ->
  ext h h' /\ (forall k a, In (k, Some a) r -> length h <= a < length h') /\ read_entries h' r = read_entries h m.
Proof.
  induction m as [|[k o] m IH]; intros h h' r E Hin; cbn [clone_entries] in E.
  - injection E as <- <-. split; [apply ext_refl|]. split; [intros k a []|reflexivity].
  - destruct (clone_strs h o) as [h1 o'] eqn:E1. destruct (clone_entries h1 m) as [h2 r2] eqn:E2.
    injection E as <- <-.
    destruct (clone_strs_spec _ _ _ _ E1) as (X1 & F1 & C1).
    destruct (IH _ _ _ E2) as (X2 & F2 & C2).
    { intros k' a H. apply Nat.lt_le_trans with (length h); [eapply Hin; right; exact H|apply ext_length, X1]. }
    pose proof (ext_length _ _ X1). pose proof (ext_length _ _ X2).
    split; [eapply ext_trans; eassumption|]. split.
    + intros k' a [H1|H1].
      * injection H1 as _ ->. specialize (F1 a eq_refl). lia.
      * specialize (F2 _ _ H1). lia.
    + unfold read_entries in *. cbn [map fst snd]. f_equal.
      * f_equal. rewrite <- C1. destruct o' as [a|]; [|reflexivity]. cbn. f_equal.
        apply ext_get_strs; [exact X2|]. specialize (F1 a eq_refl). lia.
      * rewrite C2. apply map_ext_in. intros [k' [a|]] H1; [|reflexivity]. cbn. do 2 f_equal.
        apply ext_get_strs; [exact X1|]. eapply Hin. right. exact H1.
Qed.

Definition read_map (h : heap) (o : option addr) :=
  match o with None => [] | Some a => read_entries h (get_map h a) end.

Lemma clone_map_spec h o h' o' : clone_map h o = (h', o') ->
  (forall a k b, o = Some a -> In (k, Some b) (get_map h a) -> b < length h) ->
  ext h h' /\ fresh_in (length h) h' o' /\
  (forall a k b, o' = Some a -> In (k, Some b) (get_map h' a) -> length h <= b < length h') /\
  read_map h' o' = read_map h o.
Proof.
  destruct o as [a|]; cbn [clone_map].
  - destruct (clone_entries h (get_map h a)) as [h1 r] eqn:E1.
    destruct (alloc h1 (CMap r)) as [h2 b] eqn:E2. intros H Hin; injection H as <- <-.
    destruct (clone_entries_spec _ _ _ _ E1) as (X1 & F1 & C1); [intros k c; apply Hin; reflexivity|].
    destruct (alloc_spec _ _ _ _ E2) as (X2 & -> & L & N).
    pose proof (ext_length _ _ X1). pose proof (ext_length _ _ X2).
    assert (M : get_map h2 (length h1) = r) by (unfold get_map; rewrite N; reflexivity).
    split; [eapply ext_trans; eassumption|]. split; [intros c Hc; injection Hc as <-; lia|]. split.
    + intros c k b Hc Hb. injection Hc as <-. rewrite M in Hb. specialize (F1 _ _ Hb). lia.
    + cbn [read_map]. rewrite M, <- C1. unfold read_entries. apply map_ext_in.
      intros [k [c|]] Hc; [|reflexivity]. cbn. do 2 f_equal. apply ext_get_strs; [exact X2|].
      specialize (F1 _ _ Hc). lia.
  - intros H Hin; injection H as <- <-. split; [apply ext_refl|]. split; [intros c E; discriminate|].
    split; [intros c k b E; discriminate|reflexivity].
Qed.

Lemma contents_read h f : contents h f =
  mkFilter (option_map (get_strs h) (h_ids f)) (option_map (get_ints h) (h_kinds f))
    (option_map (get_strs h) (h_authors f)) (read_map h (h_tags f))
    (option_map (get_time h) (h_since f)) (option_map (get_time h) (h_until f))
    (h_limit f) (h_search f) (h_limit_zero f).
Proof. reflexivity. Qed.

Lemma option_strs_ext h h' o n : ext h h' -> fresh_in n h o -> option_map (get_strs h') o = option_map (get_strs h) o.
Proof. intros X F. destruct o as [a|]; [|reflexivity]. cbn. f_equal. apply ext_get_strs; [exact X|]. apply (F a eq_refl). Qed.
Lemma option_ints_ext h h' o n : ext h h' -> fresh_in n h o -> option_map (get_ints h') o = option_map (get_ints h) o.
Proof. intros X F. destruct o as [a|]; [|reflexivity]. cbn. f_equal. apply ext_get_ints; [exact X|]. apply (F a eq_refl). Qed.
Lemma option_time_ext h h' o n : ext h h' -> fresh_in n h o -> option_map (get_time h') o = option_map (get_time h) o.
Proof. intros X F. destruct o as [a|]; [|reflexivity]. cbn. f_equal. apply ext_get_time; [exact X|]. apply (F a eq_refl). Qed.

Lemma clone_spec h f : (forall a, In a (reach h f) -> a < length h) ->
  forall h' g, clone h f = (h', g) ->
  contents h' g = contents h f /\ contents h' f = contents h f /\ separate h' f g.
Proof.
  intros Hwf h' g E. unfold clone in E.
  destruct (clone_strs h (h_ids f)) as [h1 ids] eqn:E1.
  destruct (clone_strs h1 (h_authors f)) as [h2 authors] eqn:E2.
  destruct (clone_ints h2 (h_kinds f)) as [h3 kinds] eqn:E3.
  destruct (clone_map h3 (h_tags f)) as [h4 tags] eqn:E4.
  destruct (clone_time h4 (h_since f)) as [h5 since] eqn:E5.
  destruct (clone_time h5 (h_until f)) as [h6 until] eqn:E6.
  injection E as <- <-.
  destruct (clone_strs_spec _ _ _ _ E1) as (X1 & F1 & C1).
  destruct (clone_strs_spec _ _ _ _ E2) as (X2 & F2 & C2).
  destruct (clone_ints_spec _ _ _ _ E3) as (X3 & F3 & C3).
  pose proof (ext_length _ _ X1) as L1. pose proof (ext_length _ _ X2) as L2. pose proof (ext_length _ _ X3) as L3.
  assert (Y2 : ext h h2) by exact (ext_trans _ _ _ X1 X2).
  assert (Y3 : ext h h3) by exact (ext_trans _ _ _ Y2 X3).
  assert (RF : forall o, In o [h_ids f; h_kinds f; h_authors f; h_since f; h_until f; h_tags f] -> fresh_in 0 h o).
  { intros o Ho a ->. split; [lia|]. apply Hwf. eapply opt_in_reach; eauto. }
  assert (Rmap : forall a k b, h_tags f = Some a -> In (k, Some b) (get_map h a) -> b < length h).
  { intros a k b Ea Hb. apply Hwf. eapply in_reach_map; eauto. }
  assert (Rt : forall a, h_tags f = Some a -> a < length h).
  { intros a Ea. apply (RF (h_tags f)); [cbn [In]; tauto|exact Ea]. }
  destruct (clone_map_spec _ _ _ _ E4) as (X4 & F4 & G4 & C4).
  { intros a k b Ea Hb. rewrite (ext_get_map h h3) in Hb by (auto using Rt). specialize (Rmap _ _ _ Ea Hb). lia. }
  destruct (clone_time_spec _ _ _ _ E5) as (X5 & F5 & C5).
  destruct (clone_time_spec _ _ _ _ E6) as (X6 & F6 & C6).
  pose proof (ext_length _ _ X4) as L4. pose proof (ext_length _ _ X5) as L5. pose proof (ext_length _ _ X6) as L6.
  assert (Z5 : ext h5 h6) by exact X6.
  assert (Z4 : ext h4 h6) by exact (ext_trans _ _ _ X5 Z5).
  assert (Z3 : ext h3 h6) by exact (ext_trans _ _ _ X4 Z4).
  assert (Z2 : ext h2 h6) by exact (ext_trans _ _ _ X3 Z3).
  assert (Z1 : ext h1 h6) by exact (ext_trans _ _ _ X2 Z2).
  assert (Z0 : ext h h6) by exact (ext_trans _ _ _ X1 Z1).
  assert (Y4 : ext h h4) by exact (ext_trans _ _ _ Y3 X4).
  assert (Y5 : ext h h5) by exact (ext_trans _ _ _ Y4 X5).
  assert (Ag : agree h h6 (reach h f)).
  { intros a Ha. apply ext_nth; [exact Z0|apply Hwf, Ha]. }
  split; [|split; [apply contents_agree, Ag|]].
  - rewrite !contents_read. cbn [h_ids h_kinds h_authors h_tags h_since h_until h_limit h_search h_limit_zero].
    f_equal.
    + rewrite (option_strs_ext _ _ _ _ Z1 F1). exact C1.
    + rewrite (option_ints_ext _ _ _ _ Z3 F3), C3. eapply option_ints_ext; [exact Y2|]. apply RF. cbn [In]; tauto.
    + rewrite (option_strs_ext _ _ _ _ Z2 F2), C2. eapply option_strs_ext; [exact X1|]. apply RF. cbn [In]; tauto.
    + transitivity (read_map h4 tags).
      { destruct tags as [a|]; [|reflexivity]. cbn [read_map]. rewrite (ext_get_map h4 h6) by (exact Z4 || apply (F4 a eq_refl)).
        unfold read_entries. apply map_ext_in. intros [k [b|]] Hb; [|reflexivity]. cbn. do 2 f_equal.
        apply ext_get_strs; [exact Z4|]. apply (G4 a k b eq_refl Hb). }
      rewrite C4. destruct (h_tags f) as [a|] eqn:Ea; [|reflexivity]. cbn [read_map].
      rewrite (ext_get_map h h3) by (exact Y3 || apply Rt; reflexivity).
      unfold read_entries. apply map_ext_in. intros [k [b|]] Hb; [|reflexivity]. cbn. do 2 f_equal.
      apply ext_get_strs; [exact Y3|]. apply (Rmap a k b eq_refl Hb).
    + rewrite (option_time_ext _ _ _ _ Z5 F5), C5. eapply option_time_ext; [exact Y4|]. apply RF. cbn [In]; tauto.
    + rewrite C6. eapply option_time_ext; [exact Y5|]. apply RF. cbn [In]; tauto.
  - assert (FG : forall a, In a (reach h6 (mkH ids kinds authors tags since until (h_limit f) (h_search f) (h_limit_zero f))) ->
       length h <= a < length h6).
    { intros a Ha. unfold reach in Ha. cbn [h_ids h_kinds h_authors h_tags h_since h_until] in Ha.
      rewrite !in_app_iff in Ha.
      assert (O : forall o n hh, fresh_in n hh o -> length h <= n -> length hh <= length h6 -> In a (opt_list o) -> length h <= a < length h6).
      { intros o n hh F Hn Hh Hi. destruct o as [b|]; [|contradiction]. destruct Hi as [<-|[]]. specialize (F b eq_refl). lia. }
      destruct Ha as [H|[H|[H|[H|[H|H]]]]].
      - eapply (O _ _ _ F1); [lia|lia|exact H].
      - eapply (O _ _ _ F3); [lia|lia|exact H].
      - eapply (O _ _ _ F2); [lia|lia|exact H].
      - eapply (O _ _ _ F5); [lia|lia|exact H].
      - eapply (O _ _ _ F6); [lia|lia|exact H].
      - destruct tags as [b|]; [|contradiction]. specialize (F4 b eq_refl). destruct H as [<-|H]; [lia|].
        rewrite (ext_get_map h4 h6) in H by (exact Z4 || lia).
        apply in_flat_map in H as ([k [c|]] & Hi & Hc); cbn [snd opt_list] in Hc; [|contradiction].
        destruct Hc as [<-|[]]. specialize (G4 b k c eq_refl Hi). lia. }
    pose proof (reach_agree _ _ _ Ag) as HR.
    repeat split.
    + intros a Ha. rewrite HR in Ha. specialize (Hwf a Ha). lia.
    + intros a Ha. apply FG, Ha.
    + intros a H1 H2. rewrite HR in H1. specialize (Hwf a H1). specialize (FG a H2). lia.
Qed.

(** ** C11 *)
(** Clone has the same contents; and after any sequence of writes through the two filters, one more
    write through one of them leaves what the other contains unchanged. *)
Theorem C11_clone_equal : forall h f h' g,
  (forall a, In a (reach h f) -> a < length h) -> clone h f = (h', g) ->
  contents h' g = contents h f /\ contents h' f = contents h f.
Proof. intros h f h' g H E. destruct (clone_spec h f H h' g E) as (A & B & _). auto. Qed.
Print Assumptions C11_clone_equal.

Theorem C11_clone_independent : forall h f h' g ws w,
  (forall a, In a (reach h f) -> a < length h) -> clone h f = (h', g) ->
  let hn := run_writes h' f g ws in
  contents (do_write hn f w) g = contents hn g /\ contents (do_write hn g w) f = contents hn f.
Proof.
  intros h f h' g ws w H E hn. destruct (clone_spec h f H h' g E) as (_ & _ & S).
  pose proof (run_separate ws _ _ _ S) as S'. split.
  - apply write_other, S'.
  - apply write_other, separate_sym, S'.
Qed.
Print Assumptions C11_clone_independent.

(** In particular the clone keeps the original contents under any writes through the original. *)
Theorem C11_clone_snapshot : forall h f h' g ws,
  (forall a, In a (reach h f) -> a < length h) -> clone h f = (h', g) ->
  Forall (fun p => fst p = true) ws -> contents (run_writes h' f g ws) g = contents h f.
Proof.
  intros h f h' g ws H E Ht. destruct (clone_spec h f H h' g E) as (A & _ & S).
  rewrite run_one_side by assumption. exact A.
Qed.
Print Assumptions C11_clone_snapshot.

Definition ex_heap : heap := [CStrs [B "a"; B "b"]; CInts [1; 2]%Z; CMap [(B "t", Some 3); (B "p", None)]; CStrs [B "x"]; CTime 7].
Definition ex_hf : hfilter := mkH (Some 0) (Some 1) None (Some 2) (Some 4) None 10 [] false.
Example C11_example :
  (forall a, In a (reach ex_heap ex_hf) -> a < length ex_heap) /\
  (let '(h', g) := clone ex_heap ex_hf in
   let hn := run_writes h' ex_hf g [(true, WIds 0 (B "zz")); (true, WTagItem (B "t") 0 (B "q")); (true, WTagSet (B "n") (Some [B "v"])); (true, WSince 9)] in
   contents hn g = contents ex_heap ex_hf /\ contents hn ex_hf <> contents ex_heap ex_hf /\
   f_since (contents hn ex_hf) = Some 9%Z /\ f_tags (contents hn ex_hf) = [(B "n", Some [B "v"]); (B "t", Some [B "q"]); (B "p", None)]).
Proof.
  split.
  - intros a H. cbn in H. repeat (destruct H as [<-|H]; [cbn; lia|]). contradiction.
  - vm_compute. repeat split. discriminate.
Qed.
