(** Round trip of filters through the easyjson codec. *)
From Verif Require Import Base JsonSpec EventModel EventProofs TagsModel FilterModel FilterProofs JLexModel JLexProofs JsonEventProofs.
Local Open Scope nat_scope.

Definition ov {A} (o : option (list A)) : list A := match o with Some l => l | None => [] end.
Definition list_member {A} (key : str) (w : list A -> str) (o : option (list A)) : list (str * str) :=
  match ov o with [] => [] | l => [(key, w l)] end.
Definition time_member (key : str) (o : option Z) : list (str * str) := match o with Some t => [(key, dec_Z t)] | None => [] end.
Definition tag_member (p : str * option (list str)) : str * str := ("#"%char :: fst p, jw_strings (ov (snd p))).
Definition filter_members (f : nfilter) : list (str * str) :=
  list_member (B "ids") jw_strings (f_ids f) ++ list_member (B "kinds") (fun l => jw_array (map dec_Z l)) (f_kinds f) ++
  list_member (B "authors") jw_strings (f_authors f) ++ time_member (B "since") (f_since f) ++ time_member (B "until") (f_until f) ++
  (if negb (Z.eqb (f_limit f) 0) || f_limit_zero f then [(B "limit", dec_Z (f_limit f))] else []) ++
  opt_member (B "search") (f_search f) ++ map tag_member (f_tags f).

Lemma member_text_eq k t : member_text (k, t) = quote :: k ++ [quote; ":"%char] ++ t.
Proof. reflexivity. Qed.

Lemma encode_filter_object f : encode_filter f = object_text (filter_members f).
Proof.
  unfold encode_filter, object_text. change (B "{") with ["{"%char]. cbn [app]. f_equal. f_equal. f_equal.
  unfold jw_fields, filter_members. rewrite !map_app.
  f_equal; [destruct (f_ids f) as [[|]|]; reflexivity|].
  f_equal; [destruct (f_kinds f) as [[|]|]; reflexivity|].
  f_equal; [destruct (f_authors f) as [[|]|]; reflexivity|].
  f_equal; [destruct (f_since f); reflexivity|].
  f_equal; [destruct (f_until f); reflexivity|].
  f_equal; [destruct (negb (Z.eqb (f_limit f) 0) || f_limit_zero f); reflexivity|].
  f_equal; [destruct (f_search f); reflexivity|].
  rewrite map_map. apply map_ext. intros [k v]. cbn [fst snd tag_member]. unfold tag_member. cbn [fst snd]. rewrite member_text_eq.
  change (B """#") with [quote; "#"%char]. change (B """:") with [quote; ":"%char]. cbn [app].
  rewrite <- ?app_assoc. destruct v; reflexivity.
Qed.

(** What may be written: text is UTF-8, integers fit, tag names are non-empty, distinct and need no escaping. *)
Definition text_filter (f : nfilter) : Prop :=
  Forall utf8_text (ov (f_ids f)) /\ Forall int64 (ov (f_kinds f)) /\ Forall utf8_text (ov (f_authors f)) /\
  (forall t, f_since f = Some t -> int64 t) /\ (forall t, f_until f = Some t -> int64 t) /\ int64 (f_limit f) /\
  utf8_text (f_search f) /\ NoDup (map fst (f_tags f)) /\
  Forall (fun p => fst p <> [] /\ forallb plain_char (fst p) = true /\ Forall utf8_text (ov (snd p))) (f_tags f).

Definition non_empty {A} (o : option (list A)) : option (list A) := match ov o with [] => None | l => Some l end.
(** What comes back. *)
Definition canon (f : nfilter) : nfilter :=
  mkFilter (non_empty (f_ids f)) (non_empty (f_kinds f)) (non_empty (f_authors f))
    (map (fun p => (fst p, Some (ov (snd p)))) (f_tags f)) (f_since f) (f_until f) (f_limit f) (f_search f)
    (f_limit_zero f && Z.eqb (f_limit f) 0).

Lemma map_set_new {V} k (v : V) m : ~ In k (map fst m) -> map_set k v m = m ++ [(k, v)].
Proof.
  induction m as [|[k' v'] m IH]; intro H; [reflexivity|]. cbn [map fst In] in H. cbn [map_set].
  destruct (seqb k k') eqn:E; [apply seqb_eq in E; subst; tauto|]. rewrite IH by tauto. reflexivity.
Qed.

Section Fuel.
  Variable fuel : nat.
  Let ch := chain lstring (filter_field fuel).

  Ltac name := eapply reads_string, enc_key; vm_compute; reflexivity.

  Lemma ch_ids f o : Forall utf8_text (ov o) -> length (ov o) < fuel -> f_ids f = None ->
    ch f (list_member (B "ids") jw_strings o) (mkFilter (non_empty o) (f_kinds f) (f_authors f) (f_tags f) (f_since f) (f_until f) (f_limit f) (f_search f) (f_limit_zero f)).
  Proof.
    unfold list_member, non_empty. intros H Hf E. destruct (ov o) as [|x l]; [destruct f; cbn in E; subst; constructor|].
    apply chain_one; [name|].
    apply (reads_map (array fuel lstring) _ (x :: l) (fun v => mkFilter (Some v) (f_kinds f) (f_authors f) (f_tags f) (f_since f) (f_until f) (f_limit f) (f_search f) (f_limit_zero f))).
    apply reads_strings; assumption.
  Qed.
  Lemma ch_kinds f o : Forall int64 (ov o) -> length (ov o) < fuel -> f_kinds f = None ->
    ch f (list_member (B "kinds") (fun l => jw_array (map dec_Z l)) o) (mkFilter (f_ids f) (non_empty o) (f_authors f) (f_tags f) (f_since f) (f_until f) (f_limit f) (f_search f) (f_limit_zero f)).
  Proof.
    unfold list_member, non_empty. intros H Hf E. destruct (ov o) as [|x l]; [destruct f; cbn in E; subst; constructor|].
    apply chain_one; [name|].
    apply (reads_map (array fuel lint) _ (x :: l) (fun v => mkFilter (f_ids f) (Some v) (f_authors f) (f_tags f) (f_since f) (f_until f) (f_limit f) (f_search f) (f_limit_zero f))).
    apply reads_ints; assumption.
  Qed.
  Lemma ch_authors f o : Forall utf8_text (ov o) -> length (ov o) < fuel -> f_authors f = None ->
    ch f (list_member (B "authors") jw_strings o) (mkFilter (f_ids f) (f_kinds f) (non_empty o) (f_tags f) (f_since f) (f_until f) (f_limit f) (f_search f) (f_limit_zero f)).
  Proof.
    unfold list_member, non_empty. intros H Hf E. destruct (ov o) as [|x l]; [destruct f; cbn in E; subst; constructor|].
    apply chain_one; [name|].
    apply (reads_map (array fuel lstring) _ (x :: l) (fun v => mkFilter (f_ids f) (f_kinds f) (Some v) (f_tags f) (f_since f) (f_until f) (f_limit f) (f_search f) (f_limit_zero f))).
    apply reads_strings; assumption.
  Qed.
  Lemma ch_since f o : (forall t, o = Some t -> int64 t) -> f_since f = None ->
    ch f (time_member (B "since") o) (mkFilter (f_ids f) (f_kinds f) (f_authors f) (f_tags f) o (f_until f) (f_limit f) (f_search f) (f_limit_zero f)).
  Proof.
    intros H E. destruct o as [t|]; [|destruct f; cbn in E; subst; constructor].
    apply chain_one; [name|].
    apply (reads_map lint _ t (fun v => mkFilter (f_ids f) (f_kinds f) (f_authors f) (f_tags f) (Some v) (f_until f) (f_limit f) (f_search f) (f_limit_zero f))).
    apply reads_int, H. reflexivity.
  Qed.
  Lemma ch_until f o : (forall t, o = Some t -> int64 t) -> f_until f = None ->
    ch f (time_member (B "until") o) (mkFilter (f_ids f) (f_kinds f) (f_authors f) (f_tags f) (f_since f) o (f_limit f) (f_search f) (f_limit_zero f)).
  Proof.
    intros H E. destruct o as [t|]; [|destruct f; cbn in E; subst; constructor].
    apply chain_one; [name|].
    apply (reads_map lint _ t (fun v => mkFilter (f_ids f) (f_kinds f) (f_authors f) (f_tags f) (f_since f) (Some v) (f_limit f) (f_search f) (f_limit_zero f))).
    apply reads_int, H. reflexivity.
  Qed.
  Lemma ch_limit f z b : int64 z -> f_limit f = 0%Z -> f_limit_zero f = false ->
    ch f (if negb (Z.eqb z 0) || b then [(B "limit", dec_Z z)] else [])
      (mkFilter (f_ids f) (f_kinds f) (f_authors f) (f_tags f) (f_since f) (f_until f) z (f_search f) (b && Z.eqb z 0)).
  Proof.
    intros H E1 E2. destruct (negb (Z.eqb z 0) || b) eqn:Eb.
    - replace (b && Z.eqb z 0) with (Z.eqb z 0 || f_limit_zero f).
      2:{ rewrite E2. destruct (Z.eqb z 0), b; try reflexivity; discriminate Eb. }
      apply chain_one; [name|].
      apply (reads_map lint _ z (fun v => mkFilter (f_ids f) (f_kinds f) (f_authors f) (f_tags f) (f_since f) (f_until f) v (f_search f) (Z.eqb v 0 || f_limit_zero f))).
      apply reads_int, H.
    - apply orb_false_iff in Eb as [Ez ->]. apply negb_false_iff, Z.eqb_eq in Ez. subst z.
      destruct f; cbn in E1, E2; subst; constructor.
  Qed.
  Lemma ch_search f s : utf8_text s -> f_search f = [] ->
    ch f (opt_member (B "search") s) (mkFilter (f_ids f) (f_kinds f) (f_authors f) (f_tags f) (f_since f) (f_until f) (f_limit f) s (f_limit_zero f)).
  Proof.
    intros H E. destruct s as [|c s]; [destruct f; cbn in E; subst; constructor|].
    apply chain_one; [name|].
    apply (reads_map lstring _ (c :: s) (fun s => mkFilter (f_ids f) (f_kinds f) (f_authors f) (f_tags f) (f_since f) (f_until f) (f_limit f) s (f_limit_zero f))).
    apply reads_string, jw_chars_enc, H.
  Qed.

  Definition with_tags (f : nfilter) m : nfilter :=
    mkFilter (f_ids f) (f_kinds f) (f_authors f) m (f_since f) (f_until f) (f_limit f) (f_search f) (f_limit_zero f).

  Lemma hash_key_other (n w : str) : ceqb "#"%char (hd quote w) = false -> w <> [] -> seqb ("#"%char :: n) w = false.
  Proof. destruct w as [|c w]; [intros _ H; contradiction|]. cbn [hd seqb]. intros H _. unfold ceqb in H. rewrite H. reflexivity. Qed.

  Lemma filter_field_tag n x f : n <> [] ->
    filter_field fuel ("#"%char :: n) x f =
    (let '(v, l) := array fuel lstring x in (with_tags f (map_set n (Some v) (f_tags f)), l)).
  Proof.
    intro H. unfold filter_field. rewrite !hash_key_other by (reflexivity || discriminate).
    destruct n as [|d n]; [contradiction|]. reflexivity.
  Qed.

  Lemma ch_tag f n vs : n <> [] -> forallb plain_char n = true -> Forall utf8_text vs -> length vs < fuel ->
    ch f [("#"%char :: n, jw_strings vs)] (with_tags f (map_set n (Some vs) (f_tags f))).
  Proof.
    intros Hn Hp H Hf. apply chain_one.
    - apply reads_string, enc_key. cbn [forallb]. rewrite Hp. reflexivity.
    - eapply reads_ext; [intro l; apply filter_field_tag, Hn|].
      apply (reads_map (array fuel lstring) _ vs (fun v => with_tags f (map_set n (Some v) (f_tags f)))).
      apply reads_strings; assumption.
  Qed.

  Lemma ch_tags_all m : forall f,
    Forall (fun p => fst p <> [] /\ forallb plain_char (fst p) = true /\ Forall utf8_text (ov (snd p)) /\ length (ov (snd p)) < fuel) m ->
    NoDup (map fst m) -> (forall k, In k (map fst m) -> ~ In k (map fst (f_tags f))) ->
    ch f (map tag_member m) (with_tags f (f_tags f ++ map (fun p => (fst p, Some (ov (snd p)))) m)).
  Proof.
    induction m as [|[k o] m IH]; intros f H Hd Hn.
    - cbn [map]. rewrite app_nil_r. destruct f; constructor.
    - inversion H as [|? ? (H1 & H2 & H3 & H4) H5]; subst. cbn [fst snd] in *.
      cbn [map fst] in Hd. inversion Hd as [|? ? Hd1 Hd2]; subst.
      cbn [map]. unfold tag_member at 1. cbn [fst snd].
      apply (chain_app _ _ _ [_]) with (b := with_tags f (map_set k (Some (ov o)) (f_tags f))); [apply ch_tag; assumption|].
      assert (Hk : ~ In k (map fst (f_tags f))) by (apply Hn; left; reflexivity).
      rewrite map_set_new by exact Hk.
      specialize (IH (with_tags f (f_tags f ++ [(k, Some (ov o))])) H5 Hd2).
      cbn [with_tags f_tags] in IH. unfold with_tags in *. cbn [f_ids f_kinds f_authors f_tags f_since f_until f_limit f_search f_limit_zero] in IH.
      rewrite <- app_assoc in IH. cbn [app] in IH. apply IH.
      intros x Hx. rewrite map_app, in_app_iff. cbn [map fst In]. intros [E|[E|[]]].
      + apply (Hn x); [right; exact Hx|exact E].
      + subst. contradiction.
  Qed.

  Lemma filter_chain f : text_filter f -> length (ov (f_ids f)) < fuel -> length (ov (f_kinds f)) < fuel -> length (ov (f_authors f)) < fuel ->
    (forall p, In p (f_tags f) -> length (ov (snd p)) < fuel) -> ch zero_filter (filter_members f) (canon f).
  Proof.
    intros (H1 & H2 & H3 & H4 & H5 & H6 & H7 & H8 & H9) L1 L2 L3 L4. unfold filter_members.
    Local Ltac fl := cbn [zero_filter f_ids f_kinds f_authors f_tags f_since f_until f_limit f_search f_limit_zero].
    eapply chain_app; [apply ch_ids; [exact H1|exact L1|reflexivity]|]. fl.
    eapply chain_app; [apply ch_kinds; [exact H2|exact L2|reflexivity]|]. fl.
    eapply chain_app; [apply ch_authors; [exact H3|exact L3|reflexivity]|]. fl.
    eapply chain_app; [apply ch_since; [exact H4|reflexivity]|]. fl.
    eapply chain_app; [apply ch_until; [exact H5|reflexivity]|]. fl.
    eapply chain_app; [apply ch_limit; [exact H6|reflexivity|reflexivity]|]. fl.
    eapply chain_app; [apply ch_search; [exact H7|reflexivity]|]. fl.
    match goal with |- chain _ _ ?f0 _ _ => pose proof (ch_tags_all (f_tags f) f0) as C end.
    unfold with_tags in C. cbn [f_ids f_kinds f_authors f_tags f_since f_until f_limit f_search f_limit_zero app] in C.
    apply C; [|exact H8|intros k _ []].
    apply Forall_forall. intros p Hp. rewrite Forall_forall in H9. destruct (H9 p Hp) as (A & D & E). auto.
  Qed.
End Fuel.

Lemma jw_strings_count l : length l <= length (jw_strings l).
Proof. unfold jw_strings. pose proof (jw_array_count (map jw_string l)) as C. rewrite map_length in C. exact C. Qed.

Lemma filter_round_trip f : text_filter f -> decode_filter (encode_filter f) = Ok (canon f).
Proof.
  intro H. unfold decode_filter, decode_filter_into. rewrite encode_filter_object.
  assert (L : forall k t, In (k, t) (filter_members f) -> length t <= length (object_text (filter_members f))).
  { intros k t Hi. apply (member_length (k, t) _ Hi). }
  assert (C : chain lstring (filter_field (S (length (object_text (filter_members f))))) zero_filter (filter_members f) (canon f)).
  { apply filter_chain; [exact H| | | |].
    - destruct (ov (f_ids f)) as [|x l] eqn:E; [cbn; lia|].
      specialize (L (B "ids") (jw_strings (x :: l))). pose proof (jw_strings_count (x :: l)).
      enough (length (jw_strings (x :: l)) <= length (object_text (filter_members f))) by (unfold str in *; lia).
      apply L. unfold filter_members, list_member. rewrite E. apply in_or_app. left. left. reflexivity.
    - destruct (ov (f_kinds f)) as [|x l] eqn:E; [cbn; lia|].
      specialize (L (B "kinds") (jw_array (map dec_Z (x :: l)))). pose proof (jw_array_count (map dec_Z (x :: l))) as C. rewrite map_length in C.
      enough (length (jw_array (map dec_Z (x :: l))) <= length (object_text (filter_members f))) by (unfold str in *; lia).
      apply L. unfold filter_members, list_member. rewrite E. apply in_or_app. right. apply in_or_app. left. left. reflexivity.
    - destruct (ov (f_authors f)) as [|x l] eqn:E; [cbn; lia|].
      specialize (L (B "authors") (jw_strings (x :: l))). pose proof (jw_strings_count (x :: l)).
      enough (length (jw_strings (x :: l)) <= length (object_text (filter_members f))) by (unfold str in *; lia).
      apply L. unfold filter_members, list_member. rewrite E. do 2 (apply in_or_app; right). apply in_or_app. left. left. reflexivity.
    - intros p Hp. specialize (L ("#"%char :: fst p) (jw_strings (ov (snd p)))). pose proof (jw_strings_count (ov (snd p))).
      enough (length (jw_strings (ov (snd p))) <= length (object_text (filter_members f))) by (unfold str in *; lia).
      apply L. unfold filter_members. repeat (apply in_or_app; right).
      apply (in_map tag_member) in Hp. exact Hp. }
  destruct (decode_object_chain _ _ _ _ _ C) as [D N].
  destruct (is_null (lx_init (object_text (filter_members f)))) as [n l]. cbn [fst] in N. subst n.
  exact D.
Qed.
