(** Proofs about HttpUrlModel. *)
From Verif Require Import Base IdentModel Bech32Model HttpUrlModel.
From Coq Require Import Sorting.Sorted.
Import ListNotations.
Local Open Scope bool_scope.

(** ** Escapes *)
Lemma ceqb_eq a b : ceqb a b = true <-> a = b. Proof. apply Ascii.eqb_eq. Qed.
Lemma ceqb_neq a b : ceqb a b = false <-> a <> b. Proof. apply Ascii.eqb_neq. Qed.
Lemma unescape_percent m c r : (is_mode_host m = false) -> url_unescape m (percent c ++ r) = option_map (cons c) (url_unescape m r).
Proof.
  intro M. unfold percent. cbn [app url_unescape]. rewrite (proj2 (ceqb_eq _ _) eq_refl).
  assert (H : forall n, (n < 16)%N -> hex_val (upper_digit n) = Some n).
  { intros n L. assert (K : forallb (fun n => match hex_val (upper_digit n) with Some x => (x =? n)%N | None => false end) (map N.of_nat (seq 0 16)) = true) by (vm_compute; reflexivity).
    rewrite forallb_forall in K. specialize (K n). destruct (hex_val (upper_digit n)) as [x|].
    - f_equal. apply N.eqb_eq, K. apply in_map_iff. exists (N.to_nat n). split; [apply N2Nat.id|apply in_seq; lia].
    - discriminate K. apply in_map_iff. exists (N.to_nat n). split; [apply N2Nat.id|apply in_seq; lia]. }
  rewrite !H by (first [apply val_div_lt|apply val_mod_lt]). rewrite M. cbn [andb]. rewrite val_split, byte_of_val. reflexivity.
Qed.
Definition query_char (c : ascii) : bool := negb (should_escape MQuery c).
Lemma query_char_plain : forall c, query_char c = true -> ceqb c "%"%char = false /\ ceqb c "+"%char = false.
Proof.
  intros c H. assert (K : forall c, (negb (query_char c) || negb (ceqb c "%"%char) && negb (ceqb c "+"%char)) = true) by (apply bytes_forallb; vm_compute; reflexivity).
  specialize (K c). rewrite H in K. cbn [negb orb] in K. apply andb_true_iff in K. rewrite !negb_true_iff in K. exact K.
Qed.
Lemma unescape_char_query c r : url_unescape MQuery (escape_char MQuery c ++ r) = option_map (cons c) (url_unescape MQuery r).
Proof.
  unfold escape_char. destruct (should_escape MQuery c) eqn:E.
  - cbn [is_mode_query andb]. destruct (ceqb c " "%char) eqn:S0.
    + apply ceqb_eq in S0 as ->. reflexivity.
    + apply unescape_percent. reflexivity.
  - destruct (query_char_plain c) as [P Q]; [unfold query_char; rewrite E; reflexivity|]. cbn [app url_unescape is_mode_host is_mode_query andb]. rewrite P, Q. reflexivity.
Qed.
Lemma unescape_query s r : url_unescape MQuery (url_escape MQuery s ++ r) = option_map (app s) (url_unescape MQuery r).
Proof.
  induction s as [|c s IH]; [cbn; destruct (url_unescape MQuery r); reflexivity|]. unfold url_escape in *. cbn [flat_map]. rewrite <- app_assoc, unescape_char_query, IH.
  destruct (url_unescape MQuery r); reflexivity.
Qed.
Lemma unescape_query_all s : url_unescape MQuery (url_escape MQuery s) = Some s.
Proof. pose proof (unescape_query s []) as H. rewrite app_nil_r in H. rewrite H. cbn. rewrite app_nil_r. reflexivity. Qed.
Lemma escape_plain m s : forallb (fun c => negb (should_escape m c)) s = true -> url_escape m s = s.
Proof.
  induction s as [|c s IH]; [reflexivity|]. cbn [forallb]. rewrite andb_true_iff, negb_true_iff. intros [E H]. unfold url_escape. cbn [flat_map]. unfold escape_char at 1. rewrite E. cbn [app]. f_equal. apply IH, H.
Qed.
Lemma unescape_plain m s : forallb (fun c => negb (ceqb c "%"%char) && negb (is_mode_query m && ceqb c "+"%char) && negb (is_mode_host m && should_escape MHost c)) s = true -> url_unescape m s = Some s.
Proof.
  induction s as [|c s IH]; [reflexivity|]. cbn [forallb]. rewrite !andb_true_iff, !negb_true_iff. intros [[[P Q] R] H]. cbn [url_unescape]. rewrite P, (IH H), Q. cbn [option_map].
  destruct (is_mode_host m); cbn [andb] in *; [rewrite R, andb_false_r; reflexivity|reflexivity].
Qed.
(** Characters of an escaped query component. *)
Definition enc_char (c : ascii) : bool := is_alnum c || one_of "-_.~%+" c.
Lemma escape_enc s : forallb enc_char (url_escape MQuery s) = true.
Proof.
  induction s as [|c s IH]; [reflexivity|]. unfold url_escape in *. cbn [flat_map]. rewrite forallb_app, IH, andb_true_r. revert c. apply bytes_forallb. vm_compute. reflexivity.
Qed.
Lemma forallb_impl {X} (f g : X -> bool) l : (forall x, f x = true -> g x = true) -> forallb f l = true -> forallb g l = true.
Proof. intros H. rewrite !forallb_forall. auto. Qed.
Lemma char_impl (f g : ascii -> bool) : forallb (fun c => negb (f c) || g c) (map (fun n => byte_of (N.of_nat n)) (seq 0 256)) = true -> forall c, f c = true -> g c = true.
Proof.
  intros H c F. assert (K : In c (map (fun n => byte_of (N.of_nat n)) (seq 0 256))).
  { apply in_map_iff. exists (N.to_nat (val c)). rewrite N2Nat.id. split; [apply byte_of_val|]. apply in_seq. pose proof (val_lt c). lia. }
  rewrite forallb_forall in H. specialize (H c K). rewrite F in H. exact H.
Qed.

(** ** Lists of characters *)
Definition without (c : ascii) (s : str) : bool := forallb (fun x => negb (ceqb x c)) s.
Lemma without_app c s t : without c (s ++ t) = without c s && without c t. Proof. apply forallb_app. Qed.
Lemma cut_sep_without c s : without c s = true -> cut_sep c s = None.
Proof. induction s as [|x s IH]; [reflexivity|]. cbn [without forallb cut_sep]. rewrite andb_true_iff, negb_true_iff. intros [-> H]. rewrite (IH H). reflexivity. Qed.
Lemma cut_sep_app c s t : without c s = true -> cut_sep c (s ++ c :: t) = Some (s, t).
Proof.
  induction s as [|x s IH]; intro H.
  - cbn [app cut_sep]. rewrite (proj2 (ceqb_eq c c) eq_refl). reflexivity.
  - cbn [without forallb] in H. apply andb_true_iff in H as [H1 H]. apply negb_true_iff in H1. cbn [app cut_sep]. rewrite H1. fold (without c s) in H. rewrite (IH H). reflexivity.
Qed.
Lemma split_without c s : without c s = true -> split_at c s = [s].
Proof. induction s as [|x s IH]; [reflexivity|]. cbn [without forallb split_at]. rewrite andb_true_iff, negb_true_iff. intros [-> H]. rewrite (IH H). reflexivity. Qed.
Lemma split_app c s t : without c s = true -> split_at c (s ++ c :: t) = s :: split_at c t.
Proof.
  induction s as [|x s IH]; intro H.
  - cbn [app split_at]. rewrite (proj2 (ceqb_eq c c) eq_refl). reflexivity.
  - cbn [without forallb] in H. apply andb_true_iff in H as [H1 H]. apply negb_true_iff in H1. cbn [app split_at]. rewrite H1. fold (without c s) in H. rewrite (IH H). reflexivity.
Qed.
Lemma split_join l : l <> [] -> forallb (without "&"%char) l = true -> split_at "&"%char (join_amp l) = l.
Proof.
  induction l as [|x l IH]; intros N H; [congruence|]. cbn [forallb] in H. apply andb_true_iff in H as [H1 H2]. cbn [join_amp]. destruct l as [|y l]; [apply split_without, H1|].
  rewrite split_app by exact H1. f_equal. apply IH; [discriminate|exact H2].
Qed.
Lemma has_suffix_spec s x : has_suffix s x = true <-> exists a, s = a ++ x.
Proof.
  unfold has_suffix. rewrite has_prefix_spec. split; intros [t H].
  - exists (rev t). rewrite <- (rev_involutive s), H, rev_app_distr, rev_involutive. reflexivity.
  - exists (rev t). rewrite H, rev_app_distr. reflexivity.
Qed.
Lemma trim_suffix_app x a : trim_suffix_of x (a ++ x) = a.
Proof.
  unfold trim_suffix_of. rewrite (proj2 (has_suffix_spec _ _) (ex_intro _ a eq_refl)). rewrite app_length. replace (length a + length x - length x) with (length a) by lia.
  rewrite firstn_app, Nat.sub_diag, firstn_all. apply app_nil_r.
Qed.
Lemma trim_suffix_not x s : has_suffix s x = false -> trim_suffix_of x s = s. Proof. intro H. unfold trim_suffix_of. rewrite H. reflexivity. Qed.
Lemma index_slash s t : without "/"%char s = true -> index (s ++ "/"%char :: t) (B "/") = Some (length s).
Proof.
  induction s as [|x s IH]; intro H; [reflexivity|]. cbn [without forallb] in H. apply andb_true_iff in H as [H1 H]. fold (without "/"%char s) in H.
  change (B "/") with ["/"%char] in *. cbn [app index length has_prefix]. destruct (Ascii.eqb "/"%char x) eqn:E; [apply Ascii.eqb_eq in E; subst; discriminate H1|]. cbn [andb]. rewrite (IH H). reflexivity.
Qed.
Lemma index_slash_none s : without "/"%char s = true -> index s (B "/") = None.
Proof.
  induction s as [|x s IH]; intro H; [reflexivity|]. cbn [without forallb] in H. apply andb_true_iff in H as [H1 H]. fold (without "/"%char s) in H.
  change (B "/") with ["/"%char] in *. cbn [index has_prefix]. destruct (Ascii.eqb "/"%char x) eqn:E; [apply Ascii.eqb_eq in E; subst; discriminate H1|]. cbn [andb]. rewrite (IH H). reflexivity.
Qed.
Lemma after_last_without c s : without c s = true -> after_last c s = None.
Proof. induction s as [|x s IH]; [reflexivity|]. cbn [without forallb after_last]. rewrite andb_true_iff, negb_true_iff. intros [-> H]. rewrite (IH H). reflexivity. Qed.
Lemma after_last_app c s t : without c t = true -> after_last c (s ++ c :: t) = Some t.
Proof.
  intro H. induction s as [|x s IH]; cbn [app after_last].
  - rewrite (after_last_without _ _ H), (proj2 (ceqb_eq c c) eq_refl). reflexivity.
  - rewrite IH. reflexivity.
Qed.
Lemma trim_left_spaces a s : forallb is_space a = true -> (match s with c :: _ => is_space c = false | [] => True end) -> trim_left (a ++ s) = s.
Proof. intros H N. induction a as [|x a IH]; cbn [app trim_left forallb] in *; [destruct s as [|c s]; [reflexivity|cbn [trim_left]; rewrite N; reflexivity]|]. apply andb_true_iff in H as [-> H]. apply IH, H. Qed.
Lemma trim_space_plain a s b : forallb is_space a = true -> forallb is_space b = true -> s <> [] -> forallb (fun c => negb (is_space c)) s = true -> trim_space (a ++ s ++ b) = s.
Proof.
  intros Ha Hb N H. unfold trim_space. rewrite trim_left_spaces; [|exact Ha|].
  - rewrite rev_app_distr, trim_left_spaces, rev_involutive; [reflexivity| |].
    + rewrite forallb_forall in *. intros x Hx. apply Hb. rewrite in_rev. exact Hx.
    + destruct (rev s) as [|c r] eqn:E; [exact I|]. rewrite forallb_forall in H. apply negb_true_iff, H. rewrite in_rev, E. left. reflexivity.
  - destruct s as [|c s]; [congruence|]. cbn [app]. cbn [forallb] in H. apply andb_true_iff in H as [H _]. apply negb_true_iff, H.
Qed.

(** ** Queries *)
Definition enc_pair (p : str * str) : str := url_escape MQuery (fst p) ++ "="%char :: url_escape MQuery (snd p).
Definition raw_pair (p : str * str) : str := fst p ++ "="%char :: snd p.
Lemma enc_without c s : enc_char c = false -> without c (url_escape MQuery s) = true.
Proof.
  intro E. unfold without. eapply forallb_impl; [|apply escape_enc]. intros x Hx. apply negb_true_iff, ceqb_neq. intros ->. congruence.
Qed.
Lemma enc_pair_without c p : enc_char c = false -> ceqb "="%char c = false -> without c (enc_pair p) = true.
Proof. intros E F. unfold enc_pair. rewrite without_app. cbn [without forallb]. fold (without c (url_escape MQuery (snd p))). rewrite !enc_without by exact E. rewrite F. reflexivity. Qed.
Lemma parse_enc_pair p : parse_pair (enc_pair p) = Some p.
Proof.
  destruct p as [k v]. unfold parse_pair. 
  assert (W : existsb (ceqb ";"%char) (enc_pair (k, v)) = false).
  { pose proof (enc_pair_without ";"%char (k, v) eq_refl eq_refl) as W. destruct (existsb _ _) eqn:E; [|reflexivity]. apply existsb_exists in E as (x & Hx & E). apply ceqb_eq in E as <-. unfold without in W. rewrite forallb_forall in W. specialize (W _ Hx). discriminate W. }
  rewrite W. destruct (enc_pair (k, v)) as [|x r] eqn:E; [unfold enc_pair in E; destruct (url_escape MQuery (fst (k, v))); discriminate E|]. rewrite <- E. unfold cut_or, enc_pair. cbn [fst snd].
  rewrite cut_sep_app by (apply enc_without; reflexivity). rewrite !unescape_query_all. reflexivity.
Qed.
Lemma parse_query_enc l : parse_query (join_amp (map enc_pair l)) = l.
Proof.
  destruct l as [|p l]; [reflexivity|]. unfold parse_query. rewrite split_join.
  - induction (p :: l) as [|q r IH]; [reflexivity|]. cbn [map flat_map]. rewrite parse_enc_pair, IH. reflexivity.
  - discriminate.
  - rewrite forallb_forall. intros x Hx. apply in_map_iff in Hx as (q & <- & _). apply enc_pair_without; reflexivity.
Qed.
(** The pairs in the order of Encode. *)
Definition group (l : list (str * str)) : list (str * list str) := fold_left (fun m p => add_value (fst p) (snd p) m) l [].
Definition ungroup (m : list (str * list str)) : list (str * str) := flat_map (fun p => map (pair (fst p)) (snd p)) m.
Definition key_sorted (l : list (str * str)) : list (str * str) := ungroup (sort_keys (group l)).
Lemma encode_ungroup q : encode_values (query_values q) = join_amp (map enc_pair (key_sorted (parse_query q))).
Proof.
  unfold encode_values, key_sorted, ungroup. f_equal. change (query_values q) with (group (parse_query q)). induction (sort_keys (group (parse_query q))) as [|p m IH]; [reflexivity|]. cbn [flat_map]. rewrite map_app, IH. f_equal. rewrite map_map. reflexivity.
Qed.
Lemma unescape_pair p r : url_unescape MQuery (enc_pair p ++ r) = option_map (app (raw_pair p)) (url_unescape MQuery r).
Proof.
  unfold enc_pair, raw_pair. rewrite <- !app_assoc. cbn [app]. rewrite unescape_query. cbn [url_unescape is_mode_host is_mode_query andb]. change (ceqb "="%char "%"%char) with false. change (ceqb "="%char "+"%char) with false. cbn iota.
  rewrite unescape_query. destruct (url_unescape MQuery r) as [t|]; cbn [option_map]; [|reflexivity]. rewrite <- app_assoc. reflexivity.
Qed.
Lemma unescape_join l : url_unescape MQuery (join_amp (map enc_pair l)) = Some (join_amp (map raw_pair l)).
Proof.
  induction l as [|p l IH]; [reflexivity|]. cbn [map join_amp]. destruct l as [|q l].
  - cbn [map]. pose proof (unescape_pair p []) as H. rewrite app_nil_r in H. rewrite H. cbn. rewrite app_nil_r. reflexivity.
  - cbn [map] in *. rewrite unescape_pair. cbn [url_unescape is_mode_host is_mode_query andb]. change (ceqb "&"%char "%"%char) with false. change (ceqb "&"%char "+"%char) with false. cbn iota. rewrite IH. reflexivity.
Qed.
Lemma clean_query_is q : clean_query q = join_amp (map raw_pair (key_sorted (parse_query q))).
Proof. unfold clean_query. rewrite encode_ungroup, unescape_join. reflexivity. Qed.

(** ** The order of Encode: by key, the values of a key in the order given. *)
Definition of_key (k : str) (l : list (str * str)) : list (str * str) := filter (fun p => seqb k (fst p)) l.
Definition key_le (p q : str * str) : Prop := scmp (fst p) (fst q) <> Gt.
Lemma of_key_app k a b : of_key k (a ++ b) = of_key k a ++ of_key k b. Proof. apply filter_app. Qed.
Lemma of_key_map k a vs : of_key k (map (pair a) vs) = if seqb k a then map (pair a) vs else [].
Proof. induction vs as [|v vs IH]; cbn [map of_key filter fst] in *; [destruct (seqb k a); reflexivity|]. unfold of_key in IH. rewrite IH. destruct (seqb k a); reflexivity. Qed.
Lemma ungroup_cons p m : ungroup (p :: m) = map (pair (fst p)) (snd p) ++ ungroup m. Proof. reflexivity. Qed.
Lemma of_key_absent k m : ~ In k (map fst m) -> of_key k (ungroup m) = [].
Proof.
  induction m as [|[a vs] m IH]; intro N; [reflexivity|]. rewrite ungroup_cons, of_key_app, of_key_map. cbn [fst snd map In] in *. destruct (seqb_spec k a) as [->|D]; [tauto|]. apply IH. tauto.
Qed.
Lemma add_value_keys k v m : forall x, In x (map fst (add_value k v m)) <-> x = k \/ In x (map fst m).
Proof.
  induction m as [|[a vs] m IH]; intro x; cbn [add_value map fst In]; [intuition|]. destruct (seqb_spec k a) as [->|D]; cbn [map fst In]; [intuition|]. rewrite IH. intuition.
Qed.
Lemma add_value_nodup k v m : NoDup (map fst m) -> NoDup (map fst (add_value k v m)).
Proof.
  induction m as [|[a vs] m IH]; intro N; cbn [add_value map fst]; [apply NoDup_cons; [intros []|apply NoDup_nil]|]. cbn [map fst] in N. inversion N as [|? ? N1 N2]; subst.
  destruct (seqb_spec k a) as [->|D]; cbn [map fst]; [exact N|]. apply NoDup_cons; [|apply IH, N2]. rewrite add_value_keys. intros [->|Q]; [congruence|contradiction].
Qed.
Lemma add_value_of_key k v x m : NoDup (map fst m) -> of_key x (ungroup (add_value k v m)) = of_key x (ungroup m) ++ of_key x [(k, v)].
Proof.
  induction m as [|[a vs] m IH]; intro N; cbn [add_value].
  - cbn [ungroup flat_map fst snd map app of_key filter]. destruct (seqb x k); reflexivity.
  - cbn [map fst] in N. inversion N as [|? ? N1 N2]; subst. destruct (seqb_spec k a) as [->|D].
    + rewrite !ungroup_cons, !of_key_app. cbn [fst snd]. rewrite map_app, of_key_app. cbn [map]. rewrite <- !app_assoc. f_equal.
      destruct (seqb_spec x a) as [->|D]; [rewrite (of_key_absent a m N1), app_nil_r; reflexivity|]. cbn [of_key filter fst]. destruct (seqb_spec x a) as [->|_]; [congruence|]. rewrite app_nil_r. reflexivity.
    + rewrite !ungroup_cons, !of_key_app, (IH N2), app_assoc. reflexivity.
Qed.
Lemma group_spec l : NoDup (map fst (group l)) /\ forall x, of_key x (ungroup (group l)) = of_key x l.
Proof.
  unfold group. assert (G : forall l m, NoDup (map fst m) -> NoDup (map fst (fold_left (fun m p => add_value (fst p) (snd p) m) l m)) /\ forall x, of_key x (ungroup (fold_left (fun m p => add_value (fst p) (snd p) m) l m)) = of_key x (ungroup m) ++ of_key x l).
  { clear l. induction l as [|[k v] l IH]; intros m N; cbn [fold_left fst snd].
    - split; [exact N|]. intro x. cbn. rewrite app_nil_r. reflexivity.
    - destruct (IH (add_value k v m) (add_value_nodup k v m N)) as [H1 H2]. split; [exact H1|]. intro x. rewrite H2, add_value_of_key by exact N. rewrite <- app_assoc. f_equal. symmetry. apply (of_key_app x [(k, v)] l). }
  destruct (G l [] (NoDup_nil _)) as [H1 H2]. split; [exact H1|]. intro x. rewrite H2. reflexivity.
Qed.
Lemma insert_keys p m : forall x, In x (map fst (insert_key p m)) <-> x = fst p \/ In x (map fst m).
Proof. induction m as [|q m IH]; intro x; cbn [insert_key]; [cbn; intuition|]. destruct (scmp (fst p) (fst q)); cbn [map In]; rewrite ?IH; intuition. Qed.
Lemma insert_of_key p m x : NoDup (map fst (p :: m)) -> of_key x (ungroup (insert_key p m)) = of_key x (ungroup (p :: m)).
Proof.
  induction m as [|q m IH]; intro N; cbn [insert_key]; [reflexivity|]. destruct (scmp (fst p) (fst q)) eqn:C; try reflexivity.
  cbn [map] in N. inversion N as [|? ? N1 N2]; subst. inversion N2 as [|? ? N3 N4]; subst. cbn [In] in N1.
  rewrite !ungroup_cons, !of_key_app, IH, ungroup_cons, of_key_app by (cbn [map]; apply NoDup_cons; tauto). rewrite !app_assoc. f_equal. rewrite !of_key_map.
  destruct (seqb_spec x (fst q)) as [->|D1], (seqb_spec (fst q) (fst p)) as [E|D2]; try (destruct (seqb_spec x (fst p)) as [->|D3]); rewrite ?app_nil_r; try reflexivity; try congruence. exfalso. apply N1. left. exact E.
Qed.
Lemma insert_nodup p m : NoDup (map fst (p :: m)) -> NoDup (map fst (insert_key p m)).
Proof.
  induction m as [|q m IH]; intro N; cbn [insert_key]; [exact N|]. destruct (scmp (fst p) (fst q)); try exact N. cbn [map] in *. inversion N as [|? ? N1 N2]; subst. inversion N2 as [|? ? N3 N4]; subst. cbn [In] in N1.
  apply NoDup_cons; [|apply IH; apply NoDup_cons; tauto]. rewrite insert_keys. intros [Q|Q]; [apply N1; left; exact Q|contradiction].
Qed.
Definition entry_le (p q : str * list str) : Prop := scmp (fst p) (fst q) <> Gt.
Lemma scmp_le_trans a b c : scmp a b <> Gt -> scmp b c <> Gt -> scmp a c <> Gt.
Proof.
  intros H K. destruct (scmp a b) eqn:E; [apply scmp_eq in E; subst; exact K| |congruence]. destruct (scmp b c) eqn:F; [apply scmp_eq in F; subst; congruence| |congruence]. rewrite (scmp_lt_trans a b c E F). discriminate.
Qed.
Lemma insert_sorted p m : StronglySorted entry_le m -> StronglySorted entry_le (insert_key p m).
Proof.
  induction m as [|q m IH]; intro H; cbn [insert_key]; [apply SSorted_cons; [apply SSorted_nil|apply Forall_nil]|]. inversion H as [|? ? H1 H2]; subst.
  assert (LE : scmp (fst p) (fst q) <> Gt -> StronglySorted entry_le (p :: q :: m)).
  { intro L. apply SSorted_cons; [exact H|]. apply Forall_cons; [exact L|]. eapply Forall_impl; [|exact H2]. intros r K. exact (scmp_le_trans _ _ _ L K). }
  destruct (scmp (fst p) (fst q)) eqn:C; try (apply LE; congruence). apply SSorted_cons; [apply IH, H1|].
  assert (QP : entry_le q p) by (unfold entry_le; rewrite scmp_antisym, C; discriminate).
  clear -H2 QP. induction m as [|r m IH]; cbn [insert_key]; [apply Forall_cons; [exact QP|apply Forall_nil]|]. inversion H2; subst. destruct (scmp (fst p) (fst r)); repeat (apply Forall_cons; [assumption|]); try assumption. apply IH. assumption.
Qed.
Lemma sort_spec m : NoDup (map fst m) -> NoDup (map fst (sort_keys m)) /\ (forall x, In x (map fst (sort_keys m)) <-> In x (map fst m)) /\ (forall x, of_key x (ungroup (sort_keys m)) = of_key x (ungroup m)) /\ StronglySorted entry_le (sort_keys m).
Proof.
  induction m as [|p m IH]; intro N; [split; [apply NoDup_nil|]; split; [intro x; reflexivity|]; split; [intro x; reflexivity|apply SSorted_nil]|]. cbn [map] in N. inversion N as [|? ? N1 N2]; subst. destruct (IH N2) as (A & K & C & D). change (sort_keys (p :: m)) with (insert_key p (sort_keys m)).
  assert (ND : NoDup (map fst (p :: sort_keys m))) by (cbn [map]; apply NoDup_cons; [rewrite K; exact N1|exact A]).
  split; [apply insert_nodup, ND|]. split; [intro x; rewrite insert_keys, K; cbn [map In]; intuition|]. split; [|apply insert_sorted, D].
  intro x. rewrite insert_of_key by exact ND. rewrite !ungroup_cons, !of_key_app, C. reflexivity.
Qed.
Lemma ungroup_sorted m : StronglySorted entry_le m -> StronglySorted key_le (ungroup m).
Proof.
  induction m as [|[k vs] m IH]; intro H; [apply SSorted_nil|]. inversion H as [|? ? H1 H2]; subst. rewrite ungroup_cons. cbn [fst snd]. induction vs as [|v vs IHv]; [apply IH, H1|]. cbn [map app].
  assert (IHv' : StronglySorted key_le (map (pair k) vs ++ ungroup m)).
  { apply IHv; [apply SSorted_cons; [exact H1|exact H2]|exact H2]. } apply SSorted_cons; [exact IHv'|].
  apply Forall_forall. intros [k' v'] Q. apply in_app_or in Q as [Q|Q].
  - apply in_map_iff in Q as (w & E & _). injection E as <- <-. unfold key_le. cbn [fst]. rewrite scmp_refl. discriminate.
  - unfold ungroup in Q. apply in_flat_map in Q as ([a ws] & Ha & Q). apply in_map_iff in Q as (w & E & _). cbn [fst] in E. injection E as <- <-. rewrite Forall_forall in H2. exact (H2 _ Ha).
Qed.
Lemma key_sorted_spec l : StronglySorted key_le (key_sorted l) /\ forall x, of_key x (key_sorted l) = of_key x l.
Proof.
  unfold key_sorted. destruct (group_spec l) as [N G]. destruct (sort_spec _ N) as (_ & _ & C & D). split; [apply ungroup_sorted, D|]. intro x. rewrite C. apply G.
Qed.
Lemma of_key_in x l p : In p (of_key x l) -> In p l /\ fst p = x.
Proof. unfold of_key. rewrite filter_In. intros [H E]. apply seqb_eq in E. auto. Qed.
Lemma sorted_unique l : forall l', StronglySorted key_le l -> StronglySorted key_le l' -> (forall x, of_key x l = of_key x l') -> l = l'.
Proof.
  assert (HD : forall p l, of_key (fst p) (p :: l) = p :: of_key (fst p) l) by (intros p r; unfold of_key; cbn [filter]; rewrite seqb_refl; reflexivity).
  induction l as [|p l IH]; intros l' H H' E.
  - destruct l' as [|q l']; [reflexivity|]. specialize (E (fst q)). rewrite HD in E. discriminate E.
  - destruct l' as [|q l']; [specialize (E (fst p)); rewrite HD in E; discriminate E|]. inversion H as [|? ? H1 H2]; subst. inversion H' as [|? ? H3 H4]; subst.
    assert (K : fst p = fst q).
    { assert (Q : In p (q :: l')) by (apply (of_key_in (fst p)); rewrite <- E, HD; left; reflexivity). assert (P : In q (p :: l)) by (apply (of_key_in (fst q)); rewrite E, HD; left; reflexivity).
      destruct Q as [->|Q]; [reflexivity|]. destruct P as [->|P]; [reflexivity|]. rewrite Forall_forall in H2, H4. specialize (H4 _ Q). specialize (H2 _ P). unfold key_le in *. rewrite scmp_antisym in H4.
      destruct (scmp (fst p) (fst q)) eqn:C; [apply scmp_eq, C|cbn in H4; congruence|congruence]. }
    pose proof (E (fst p)) as E0. rewrite HD, K, HD in E0. injection E0 as -> E1. f_equal. apply IH; [exact H1|exact H3|]. intro x. specialize (E x). unfold of_key in *. cbn [filter] in E. destruct (seqb x (fst q)); [|exact E]. injection E as E. exact E.
Qed.

(** ** Plain urls *)
Record plain := mkPlain { pl_tls : bool; pl_name : str; pl_port : option str; pl_path : str; pl_pairs : list (str * str) }.
Definition name_char (c : ascii) : bool := is_alnum c || one_of "-." c.
Definition path_char (c : ascii) : bool := negb (should_escape MPath c).
Definition plain_ok (u : plain) : bool :=
  nonempty (pl_name u) && forallb name_char (pl_name u) && match pl_port u with Some p => forallb is_digit p | None => true end
  && (negb (nonempty (pl_path u)) || has_prefix (pl_path u) (B "/")) && forallb path_char (pl_path u).
Definition scheme_of (u : plain) : str := if pl_tls u then B "https" else B "http".
Definition host_of (u : plain) : str := pl_name u ++ match pl_port u with Some p => ":"%char :: p | None => [] end.
Definition query_of (f : str * str -> str) (l : list (str * str)) : str := match l with [] => [] | _ => "?"%char :: join_amp (map f l) end.
Definition base_of (u : plain) : str := scheme_of u ++ B "://" ++ host_of u ++ pl_path u.
Definition write_plain (f : str * str -> str) (u : plain) : str := base_of u ++ query_of f (pl_pairs u).

Definition host_char (c : ascii) : bool := name_char c || ceqb c ":"%char.
Lemma digit_host c : is_digit c = true -> host_char c = true. Proof. apply char_impl. vm_compute. reflexivity. Qed.
Lemma host_chars u : plain_ok u = true -> forallb host_char (host_of u) = true.
Proof.
  unfold plain_ok, host_of. rewrite !andb_true_iff. intros ((((_ & H) & P) & _) & _). rewrite forallb_app. apply andb_true_iff. split.
  - eapply forallb_impl; [|exact H]. intros x Hx. unfold host_char. rewrite Hx. reflexivity.
  - destruct (pl_port u) as [p|]; [|reflexivity]. cbn [forallb]. apply andb_true_iff. split; [reflexivity|]. eapply forallb_impl; [|exact P]. apply digit_host.
Qed.
Lemma without_chars (f : ascii -> bool) c s : f c = false -> forallb f s = true -> without c s = true.
Proof. intros F H. eapply forallb_impl; [|exact H]. intros x Hx. apply negb_true_iff, ceqb_neq. intros ->. congruence. Qed.
Definition wide_char (c : ascii) : bool := negb (is_space c) && negb (is_ctl c) && negb (ceqb c "#"%char).
Lemma host_wide c : host_char c = true -> wide_char c = true. Proof. apply char_impl. vm_compute. reflexivity. Qed.
Lemma path_wide c : path_char c = true -> wide_char c = true. Proof. apply char_impl. vm_compute. reflexivity. Qed.
Lemma enc_wide c : enc_char c = true -> wide_char c = true. Proof. apply char_impl. vm_compute. reflexivity. Qed.
Lemma join_all (f : ascii -> bool) l : f "&"%char = true -> forallb (forallb f) l = true -> forallb f (join_amp l) = true.
Proof.
  intros A. induction l as [|x l IH]; intro H; [reflexivity|]. cbn [forallb] in H. apply andb_true_iff in H as [H1 H2]. cbn [join_amp]. destruct l as [|y l]; [exact H1|]. rewrite forallb_app, H1. cbn [forallb andb]. rewrite A. apply IH, H2.
Qed.
Lemma enc_pair_chars (f : ascii -> bool) p : f "="%char = true -> (forall c, enc_char c = true -> f c = true) -> forallb f (enc_pair p) = true.
Proof. intros E H. unfold enc_pair. rewrite forallb_app. cbn [forallb]. rewrite E. apply andb_true_iff. split; [|apply andb_true_iff; split; [reflexivity|]]; (eapply forallb_impl; [exact H|apply escape_enc]). Qed.
Lemma enc_query_chars (f : ascii -> bool) l : f "="%char = true -> f "&"%char = true -> (forall c, enc_char c = true -> f c = true) -> forallb f (join_amp (map enc_pair l)) = true.
Proof. intros E A H. apply join_all; [exact A|]. rewrite forallb_forall. intros x Hx. apply in_map_iff in Hx as (p & <- & _). apply enc_pair_chars; assumption. Qed.
Lemma base_wide u : plain_ok u = true -> forallb wide_char (base_of u) = true.
Proof.
  intro H. unfold base_of. rewrite !forallb_app, !andb_true_iff. split; [unfold scheme_of; destruct (pl_tls u); vm_compute; reflexivity|]. split; [vm_compute; reflexivity|]. split.
  - eapply forallb_impl; [exact host_wide|apply host_chars, H].
  - unfold plain_ok in H. rewrite !andb_true_iff in H. eapply forallb_impl; [exact path_wide|apply H].
Qed.
Lemma plain_wide u : plain_ok u = true -> forallb wide_char (write_plain enc_pair u) = true.
Proof.
  intro H. unfold write_plain. rewrite forallb_app, (base_wide u H). unfold query_of. destruct (pl_pairs u) as [|p l]; [reflexivity|]. cbn [forallb andb]. change (wide_char "?"%char) with true. cbn [andb]. apply enc_query_chars; [reflexivity|reflexivity|exact enc_wide].
Qed.
Lemma last_is_app c a x b : last_is c (a ++ x :: b) = last_is c (x :: b).
Proof. unfold last_is. rewrite rev_app_distr. destruct (rev (x :: b)) as [|y r] eqn:E; [apply (f_equal (@length ascii)) in E; rewrite rev_length in E; discriminate E|reflexivity]. Qed.
Lemma last_is_without c s : without c s = true -> last_is c s = false.
Proof.
  intro H. unfold last_is. destruct (rev s) as [|x r] eqn:E; [reflexivity|]. unfold without in H. rewrite forallb_forall in H. apply negb_true_iff, H. rewrite in_rev, E. left. reflexivity.
Qed.
Lemma join_nonempty p l : exists x r, join_amp (map enc_pair (p :: l)) = x :: r.
Proof.
  cbn [map join_amp]. assert (N : exists x r, enc_pair p = x :: r) by (unfold enc_pair; destruct (url_escape MQuery (fst p)) as [|x r]; cbn [app]; eauto). destruct N as (x & r & ->). destruct (map enc_pair l); cbn [app]; eauto.
Qed.
Definition plain_hurl (u : plain) : hurl := mkHUrl (scheme_of u) [] (host_of u) false (pl_path u) [] false (join_amp (map enc_pair (pl_pairs u))) [] [].
Lemma get_scheme_of u r : get_scheme (scheme_of u ++ ":"%char :: r) = Some (scheme_of u, r).
Proof. unfold scheme_of. destruct (pl_tls u); reflexivity. Qed.
Lemma plain_not_star u r : seqb (scheme_of u ++ r) (B "*") = false.
Proof. unfold scheme_of. destruct (pl_tls u); reflexivity. Qed.
Lemma host_parse u : plain_ok u = true -> parse_host (host_of u) = Some (host_of u).
Proof.
  intro H. pose proof (host_chars u H) as C. unfold parse_host.
  assert (N : existsb (one_of "@[") (host_of u) = false).
  { destruct (existsb _ _) eqn:E; [|reflexivity]. apply existsb_exists in E as (x & Hx & E). rewrite forallb_forall in C. specialize (C x Hx). revert C. assert (K : forall c, one_of "@[" c = true -> negb (host_char c) = true) by (apply char_impl; vm_compute; reflexivity). specialize (K x E). intro C. rewrite C in K. discriminate K. }
  rewrite N. assert (P : match after_last ":"%char (host_of u) with Some port => forallb is_digit port | None => true end = true).
  { unfold plain_ok in H. rewrite !andb_true_iff in H. destruct H as ((((_ & HN) & P) & _) & _). unfold host_of. destruct (pl_port u) as [p|].
    - rewrite after_last_app; [exact P|]. apply (without_chars is_digit); [reflexivity|exact P].
    - rewrite app_nil_r, after_last_without; [reflexivity|]. apply (without_chars name_char); [reflexivity|exact HN]. }
  rewrite P. apply unescape_plain. eapply forallb_impl; [|exact C]. apply char_impl. vm_compute. reflexivity.
Qed.
Lemma path_text u : plain_ok u = true -> set_text MPath (pl_path u) = Some (pl_path u, []).
Proof.
  intro H. unfold plain_ok in H. rewrite !andb_true_iff in H. destruct H as [_ H]. unfold set_text. rewrite unescape_plain.
  - rewrite escape_plain by exact H. rewrite seqb_refl. reflexivity.
  - eapply forallb_impl; [|exact H]. apply char_impl. vm_compute. reflexivity.
Qed.
Lemma parse_plain_before u : plain_ok u = true -> parse_before_fragment (write_plain enc_pair u) = Some (plain_hurl u).
Proof.
  intro H. unfold parse_before_fragment.
  assert (NC : existsb is_ctl (write_plain enc_pair u) = false).
  { destruct (existsb _ _) eqn:E; [|reflexivity]. apply existsb_exists in E as (x & Hx & E). pose proof (plain_wide u H) as W. rewrite forallb_forall in W. specialize (W x Hx). unfold wide_char in W. rewrite E, andb_false_r in W. discriminate W. }
  rewrite NC. unfold write_plain, base_of. rewrite <- !app_assoc. rewrite plain_not_star. change (B "://") with (":"%char :: B "//"). cbn [app]. rewrite get_scheme_of. cbn iota.
  replace (map lower (scheme_of u)) with (scheme_of u) by (unfold scheme_of; destruct (pl_tls u); reflexivity).
  set (hp := B "//" ++ host_of u ++ pl_path u).
  assert (E : B "//" ++ host_of u ++ pl_path u ++ query_of enc_pair (pl_pairs u) = hp ++ query_of enc_pair (pl_pairs u)) by (unfold hp; rewrite <- !app_assoc; reflexivity). rewrite E.
  assert (HQ : without "?"%char hp = true).
  { unfold hp. rewrite !without_app, !andb_true_iff. split; [reflexivity|]. split; [apply (without_chars host_char); [reflexivity|apply host_chars, H]|]. apply (without_chars path_char); [reflexivity|]. unfold plain_ok in H. rewrite !andb_true_iff in H. apply H. }
  assert (L : last_is "?"%char (hp ++ query_of enc_pair (pl_pairs u)) = false).
  { unfold query_of. destruct (pl_pairs u) as [|p l]; [rewrite app_nil_r; apply last_is_without, HQ|]. destruct (join_nonempty p l) as (x & r & J). rewrite last_is_app, J. change ("?"%char :: x :: r) with (["?"%char] ++ x :: r). rewrite last_is_app, <- J.
    apply last_is_without. apply enc_query_chars; [reflexivity|reflexivity|]. apply char_impl. vm_compute. reflexivity. }
  rewrite L. cbn [andb].
  assert (CU : cut_or "?"%char (hp ++ query_of enc_pair (pl_pairs u)) = (hp, join_amp (map enc_pair (pl_pairs u)))).
  { unfold cut_or, query_of. destruct (pl_pairs u) as [|p l]; [rewrite app_nil_r, cut_sep_without by exact HQ; reflexivity|]. rewrite cut_sep_app by exact HQ. reflexivity. }
  rewrite CU. change (has_prefix hp (B "/")) with true. cbn [negb andb].
  change (has_prefix hp (B "//")) with true. rewrite andb_true_r.
  assert (SC : match scheme_of u with [] => false | _ => true end = true) by (unfold scheme_of; destruct (pl_tls u); reflexivity). rewrite SC. cbn [orb].
  change (skipn 2 hp) with (host_of u ++ pl_path u).
  assert (HS : without "/"%char (host_of u) = true) by (apply (without_chars host_char); [reflexivity|apply host_chars, H]).
  assert (AU : match index (host_of u ++ pl_path u) (B "/") with Some i => (firstn i (host_of u ++ pl_path u), skipn i (host_of u ++ pl_path u)) | None => (host_of u ++ pl_path u, []) end = (host_of u, pl_path u)).
  { pose proof H as H0. unfold plain_ok in H0. rewrite !andb_true_iff in H0. destruct H0 as ((_ & P) & _). destruct (pl_path u) as [|c r].
    - rewrite app_nil_r, index_slash_none by exact HS. reflexivity.
    - cbn [nonempty negb orb] in P. change (B "/") with ["/"%char] in P. cbn [has_prefix] in P. rewrite andb_true_r in P. apply Ascii.eqb_eq in P as <-. rewrite index_slash by exact HS.
      rewrite firstn_app, Nat.sub_diag, firstn_all, skipn_app, Nat.sub_diag, skipn_all. cbn. rewrite app_nil_r. reflexivity. }
  rewrite AU, (host_parse u H), (path_text u H). reflexivity.
Qed.
Lemma parse_plain u : plain_ok u = true -> url_parse (write_plain enc_pair u) = Some (plain_hurl u).
Proof.
  intro H. unfold url_parse, cut_or. rewrite cut_sep_without by (apply (without_chars wide_char); [reflexivity|apply plain_wide, H]). rewrite (parse_plain_before u H). reflexivity.
Qed.
(** What is left of a host. *)
Definition drop_default (u : plain) : plain :=
  mkPlain (pl_tls u) (pl_name u) (match pl_port u with Some p => if seqb p (if pl_tls u then B "443" else B "80") then None else Some p | None => None end) (pl_path u) (key_sorted (pl_pairs u)).
Lemma app_last_sep (c : ascii) a x b y : without c x = true -> without c y = true -> a ++ c :: x = b ++ c :: y -> x = y.
Proof. intros X Y E. apply (f_equal (after_last c)) in E. rewrite !after_last_app in E by assumption. congruence. Qed.
Lemma trim_host u : plain_ok u = true -> trim_suffix_of (default_port (scheme_of u)) (host_of u) = host_of (drop_default u).
Proof.
  intro H. unfold plain_ok in H. rewrite !andb_true_iff in H. destruct H as ((((_ & HN) & P) & _) & _).
  assert (WN : without ":"%char (pl_name u) = true) by (apply (without_chars name_char); [reflexivity|exact HN]).
  set (d := if pl_tls u then B "443" else B "80"). assert (D : default_port (scheme_of u) = ":"%char :: d) by (unfold d, scheme_of; destruct (pl_tls u); reflexivity). rewrite D.
  assert (WD : without ":"%char d = true) by (unfold d; destruct (pl_tls u); reflexivity).
  unfold host_of, drop_default. cbn [pl_name pl_port]. fold d. destruct (pl_port u) as [p|].
  - assert (WP : without ":"%char p = true) by (apply (without_chars is_digit); [reflexivity|exact P]). destruct (seqb_spec p d) as [->|N].
    + rewrite trim_suffix_app, app_nil_r. reflexivity.
    + apply trim_suffix_not. destruct (has_suffix _ _) eqn:E; [|reflexivity]. apply has_suffix_spec in E as [a E]. apply app_last_sep in E; [congruence|assumption|assumption].
  - rewrite app_nil_r. apply trim_suffix_not. destruct (has_suffix _ _) eqn:E; [|reflexivity]. apply has_suffix_spec in E as [a E]. apply (f_equal (after_last ":"%char)) in E. rewrite after_last_app, after_last_without in E by assumption. discriminate E.
Qed.
Lemma drop_default_ok u : plain_ok u = true -> plain_ok (drop_default u) = true.
Proof. unfold plain_ok, drop_default. cbn [pl_name pl_port pl_path]. destruct (pl_port u) as [p|]; [|auto]. destruct (seqb p _); [|auto]. rewrite !andb_true_iff. tauto. Qed.
Lemma key_sorted_nil l : key_sorted l = [] <-> l = [].
Proof.
  split; [|intros ->; reflexivity]. intro E. destruct l as [|p l]; [reflexivity|]. destruct (key_sorted_spec (p :: l)) as [_ K]. specialize (K (fst p)). rewrite E in K. unfold of_key in K. cbn [filter] in K. rewrite seqb_refl in K. discriminate K.
Qed.
(** What [finish] writes, before the last slash is trimmed. *)
Definition cleaned (h : hurl) : hurl :=
  mkHUrl (hu_scheme h) (hu_opaque h) (trim_suffix_of (default_port (hu_scheme h)) (hu_host h)) (hu_omit h) (hu_path h) (hu_rawpath h) (hu_force h) (clean_query (hu_query h)) (hu_frag h) (hu_rawfrag h).
Lemma string_plain u : plain_ok u = true -> url_string (cleaned (plain_hurl u)) = write_plain raw_pair (drop_default u).
Proof.
  intro H. unfold cleaned, plain_hurl. cbn [hu_scheme hu_opaque hu_host hu_omit hu_path hu_rawpath hu_force hu_query hu_frag hu_rawfrag]. rewrite (trim_host u H).
  rewrite clean_query_is, parse_query_enc. unfold url_string. cbn [hu_scheme hu_opaque hu_host hu_omit hu_path hu_rawpath hu_force hu_query hu_frag hu_rawfrag nonempty].
  assert (SC : nonempty (scheme_of u) = true) by (unfold scheme_of; destruct (pl_tls u); reflexivity). rewrite SC. cbn [orb andb negb].
  pose proof (drop_default_ok u H) as H'. pose proof (host_chars _ H') as HC. rewrite (escape_plain MHost (host_of (drop_default u))) by (eapply forallb_impl; [|exact HC]; apply char_impl; vm_compute; reflexivity).
  assert (NH : nonempty (host_of (drop_default u)) = true).
  { unfold plain_ok in H. rewrite !andb_true_iff in H. destruct H as ((((HN & _) & _) & _) & _). unfold host_of, drop_default. cbn [pl_name]. destruct (pl_name u); [discriminate HN|reflexivity]. }
  rewrite NH. cbn [orb andb negb].
  assert (PT : escaped_text MPath (pl_path u) [] = pl_path u).
  { unfold escaped_text. unfold plain_ok in H. rewrite !andb_true_iff in H. destruct H as [_ H]. rewrite (escape_plain MPath _ H). destruct (seqb _ _); reflexivity. }
  rewrite PT.
  assert (SL : (if nonempty (pl_path u) && negb (has_prefix (pl_path u) (B "/")) && true then B "/" else []) = []).
  { unfold plain_ok in H. rewrite !andb_true_iff in H. destruct H as ((_ & P) & _). destruct (nonempty (pl_path u)); [|reflexivity]. cbn [negb orb] in P. rewrite P. reflexivity. }
  rewrite SL, !app_nil_r. unfold write_plain, base_of. change (pl_path (drop_default u)) with (pl_path u). change (pl_pairs (drop_default u)) with (key_sorted (pl_pairs u)). change (scheme_of (drop_default u)) with (scheme_of u).
  assert (QQ : (if false || nonempty (join_amp (map raw_pair (key_sorted (pl_pairs u)))) then "?"%char :: join_amp (map raw_pair (key_sorted (pl_pairs u))) else []) = query_of raw_pair (key_sorted (pl_pairs u))).
  { unfold query_of. destruct (key_sorted (pl_pairs u)) as [|p l]; [reflexivity|]. assert (NE : nonempty (join_amp (map raw_pair (p :: l))) = true) by (cbn [map join_amp]; destruct p as [[|x k] v]; destruct (map raw_pair l); reflexivity). rewrite NE. reflexivity. }
  cbn [orb] in *. rewrite QQ. generalize (host_of (drop_default u)) as hh. intro hh. unfold scheme_of. destruct (pl_tls u); cbn; rewrite ?app_nil_r, <- ?app_assoc; reflexivity.
Qed.
Lemma finish_plain u : plain_ok u = true -> finish (plain_hurl u) = trim_suffix_of (B "/") (write_plain raw_pair (drop_default u)).
Proof. intro H. rewrite <- (string_plain u H). reflexivity. Qed.
Lemma normalize_plain a u b : plain_ok u = true -> forallb is_space a = true -> forallb is_space b = true ->
  normalize_http (a ++ write_plain enc_pair u ++ b) = (trim_suffix_of (B "/") (write_plain raw_pair (drop_default u)), true).
Proof.
  intros H Ha Hb. unfold normalize_http. rewrite trim_space_plain; [|exact Ha|exact Hb| |].
  - assert (HP : has_prefix (write_plain enc_pair u) (B "http") = true) by (unfold write_plain, base_of, scheme_of; destruct (pl_tls u); reflexivity). rewrite HP, (parse_plain u H).
    replace (hu_scheme (plain_hurl u)) with (scheme_of u) by reflexivity. rewrite (finish_plain u H). unfold scheme_of. destruct (pl_tls u); reflexivity.
  - unfold write_plain, base_of, scheme_of. destruct (pl_tls u); discriminate.
  - eapply forallb_impl; [|apply plain_wide, H]. intros c. unfold wide_char. rewrite !andb_true_iff. tauto.
Qed.
