(** C113: NormalizeHTTPURL. *)
From Verif Require Import Base IdentModel Bech32Model HttpUrlModel HttpUrlProofs.
From Coq Require Import Sorting.Sorted.
Import ListNotations.
Local Open Scope bool_scope.

(** A plain url: scheme http or https, a name of letters, digits, "-" and ".", a port, a path of characters that need no escape, any list of keys and values.
    [write_plain enc_pair u] writes it with the keys and values escaped, [write_plain raw_pair u] with keys and values as they are. *)
(** [canonical u v]: v is u without the default port and with its pairs in the order of the keys, those of one key in the order given. *)
Definition canonical (u v : plain) : Prop :=
  pl_tls v = pl_tls u /\ pl_name v = pl_name u /\ pl_path v = pl_path u /\
  pl_port v = (if match pl_port u with Some p => seqb p (if pl_tls u then B "443" else B "80") | None => false end then None else pl_port u) /\
  StronglySorted key_le (pl_pairs v) /\ forall x, of_key x (pl_pairs v) = of_key x (pl_pairs u).
Lemma canonical_is u v : canonical u v <-> v = drop_default u.
Proof.
  destruct (key_sorted_spec (pl_pairs u)) as [S0 K]. split.
  - intros (H1 & H2 & H3 & H4 & H5 & H6). destruct v as [t n p q l]. cbn [pl_tls pl_name pl_port pl_path pl_pairs] in *. subst. unfold drop_default. f_equal.
    + destruct (pl_port u) as [x|]; [|reflexivity]. destruct (seqb x _); reflexivity.
    + apply sorted_unique; [exact H5|exact S0|]. intro x. rewrite K. apply H6.
  - intros ->. unfold canonical, drop_default. cbn [pl_tls pl_name pl_port pl_path pl_pairs]. repeat (split; [reflexivity|]). split; [destruct (pl_port u) as [x|]; [destruct (seqb x _)|]; reflexivity|]. split; assumption.
Qed.
Theorem C113_canonical_exists u : exists v, canonical u v /\ forall v', canonical u v' -> v' = v.
Proof. exists (drop_default u). split; [apply canonical_is; reflexivity|]. intros v' H. apply canonical_is, H. Qed.
(** ** What comes out for a plain url, with any ASCII spaces around it. *)
Theorem C113_plain a u b v : plain_ok u = true -> canonical u v -> forallb is_space a = true -> forallb is_space b = true ->
  normalize_http (a ++ write_plain enc_pair u ++ b) = (trim_suffix_of (B "/") (write_plain raw_pair v), true).
Proof. intros H C Ha Hb. apply canonical_is in C as ->. apply normalize_plain; assumption. Qed.
(** Without a scheme it is https, unless the name begins with "http". *)
Theorem C113_https u : plain_ok u = true -> pl_tls u = true -> has_prefix (pl_name u) (B "http") = false ->
  normalize_http (skipn 8 (write_plain enc_pair u)) = normalize_http (write_plain enc_pair u).
Proof.
  intros H T N. assert (E : write_plain enc_pair u = B "https://" ++ skipn 8 (write_plain enc_pair u)) by (unfold write_plain, base_of, scheme_of; rewrite T; reflexivity).
  pose proof (plain_wide u H) as W. set (r := skipn 8 (write_plain enc_pair u)) in *.
  assert (WR : forallb (fun c => negb (is_space c)) r = true). { rewrite E, forallb_app, andb_true_iff in W. eapply forallb_impl; [|apply W]. intro c. unfold wide_char. rewrite !andb_true_iff. tauto. }
  assert (NR : r <> [] /\ has_prefix r (B "http") = false).
  { unfold r, write_plain, base_of, scheme_of, host_of. rewrite T. cbn [B list_ascii_of_string app skipn]. rewrite <- !app_assoc. unfold plain_ok in H. rewrite !andb_true_iff in H. destruct H as ((((HN & HC) & P) & HS) & _). destruct (pl_name u) as [|c n]; [discriminate HN|]. split; [discriminate|].
    match goal with |- ?x = false => destruct x eqn:Q; [|reflexivity] end. exfalso. set (rest := (match pl_port u with Some p => ":"%char :: p | None => [] end) ++ pl_path u ++ query_of enc_pair (pl_pairs u)) in *.
    assert (R0 : match rest with [] => True | x :: _ => one_of "/:?" x = true end).
    { unfold rest. destruct (pl_port u) as [p|]; [reflexivity|]. cbn [app]. destruct (pl_path u) as [|x q].
      - cbn [app]. unfold query_of. destruct (pl_pairs u); [exact I|reflexivity].
      - cbn [nonempty negb orb] in HS. change (B "/") with ["/"%char] in HS. cbn [has_prefix] in HS. rewrite andb_true_r in HS. apply Ascii.eqb_eq in HS as <-. reflexivity. }
    clearbody rest. clear -N Q R0. change (B "http") with ["h"%char; "t"%char; "t"%char; "p"%char] in *. revert N Q.
    assert (K : forall p s, forallb is_letter p = true -> has_prefix (s ++ rest) p = true -> has_prefix s p = true).
    { induction p as [|y p IH]; intros s L Q; [reflexivity|]. cbn [forallb] in L. apply andb_true_iff in L as [L1 L2]. destruct s as [|x s].
      - cbn [app] in Q. destruct rest as [|x t]; [discriminate Q|]. cbn [has_prefix] in Q. apply andb_true_iff in Q as [Q _]. apply Ascii.eqb_eq in Q as ->.
        assert (F : forall c, one_of "/:?" c = true -> negb (is_letter c) = true) by (apply char_impl; vm_compute; reflexivity). apply F in R0. rewrite L1 in R0. discriminate R0.
      - cbn [app has_prefix] in *. apply andb_true_iff in Q as [-> Q]. apply IH; assumption. }
    intros N Q. apply K in Q; [congruence|reflexivity]. }
  destruct NR as [NR PF]. unfold normalize_http. pose proof (trim_space_plain [] r [] eq_refl eq_refl NR WR) as T1. cbn [app] in T1. rewrite app_nil_r in T1. rewrite T1, PF.
  assert (NW : write_plain enc_pair u <> []) by (rewrite E; discriminate).
  assert (WW : forallb (fun c => negb (is_space c)) (write_plain enc_pair u) = true). { eapply forallb_impl; [|exact W]. intro c. unfold wide_char. rewrite !andb_true_iff. tauto. }
  pose proof (trim_space_plain [] _ [] eq_refl eq_refl NW WW) as T2. cbn [app] in T2. rewrite app_nil_r in T2. rewrite T2.
  assert (HP : has_prefix (write_plain enc_pair u) (B "http") = true) by (rewrite E; reflexivity). rewrite HP, <- E. reflexivity.
Qed.

(** ** Plain urls whose keys and values need no escape *)
Definition simple (u : plain) : bool := plain_ok u && forallb (fun p => forallb query_char (fst p) && forallb query_char (snd p)) (pl_pairs u).
Definition final (u : plain) : plain :=
  mkPlain (pl_tls u) (pl_name u) (pl_port (drop_default u)) (match pl_pairs u with [] => trim_suffix_of (B "/") (pl_path u) | _ => pl_path u end) (key_sorted (pl_pairs u)).
Lemma key_sorted_in l p : In p (key_sorted l) -> In p l.
Proof. intro H. destruct (key_sorted_spec l) as [_ K]. apply (of_key_in (fst p)). rewrite <- K. unfold of_key. apply filter_In. split; [exact H|apply seqb_refl]. Qed.
Lemma simple_pairs u : simple u = true -> forallb (fun p => forallb query_char (fst p) && forallb query_char (snd p)) (key_sorted (pl_pairs u)) = true.
Proof. unfold simple. rewrite andb_true_iff, !forallb_forall. intros [_ H] p Hp. apply H, key_sorted_in, Hp. Qed.
Lemma raw_enc l : forallb (fun p => forallb query_char (fst p) && forallb query_char (snd p)) l = true -> map raw_pair l = map enc_pair l.
Proof.
  rewrite forallb_forall. intro H. apply map_ext_in. intros p Hp. specialize (H p Hp). rewrite andb_true_iff in H. destruct H as [H1 H2]. unfold raw_pair, enc_pair. rewrite !escape_plain by assumption. reflexivity.
Qed.
Lemma last_slash s : has_suffix s (B "/") = last_is "/"%char s.
Proof. unfold has_suffix, last_is. change (rev (B "/")) with ["/"%char]. destruct (rev s) as [|x r]; [reflexivity|]. cbn [has_prefix]. rewrite andb_true_r. unfold ceqb. apply Ascii.eqb_sym. Qed.
Lemma last_is_app_ne c a b : b <> [] -> last_is c (a ++ b) = last_is c b. Proof. destruct b as [|x b]; [congruence|]. intros _. apply last_is_app. Qed.
Lemma trim_slash_app a b : (b = [] -> last_is "/"%char a = false) -> trim_suffix_of (B "/") (a ++ b) = a ++ trim_suffix_of (B "/") b.
Proof.
  intro H. destruct b as [|x b0]; [|remember (x :: b0) as b eqn:Eb; assert (NB : b <> []) by (subst; discriminate); clear H].
  - rewrite !app_nil_r. unfold trim_suffix_of at 1. rewrite last_slash, (H eq_refl). change (trim_suffix_of (B "/") []) with (@nil ascii). rewrite ?app_nil_r. reflexivity.
  - destruct (has_suffix b (B "/")) eqn:E.
    + pose proof E as E0. apply has_suffix_spec in E0 as [c ->]. rewrite trim_suffix_app, app_assoc, trim_suffix_app. reflexivity.
    + rewrite (trim_suffix_not _ b E). apply trim_suffix_not. rewrite last_slash, last_is_app_ne, <- last_slash by exact NB. exact E.
Qed.
Lemma head_no_slash u : plain_ok u = true -> last_is "/"%char (scheme_of u ++ B "://" ++ host_of u) = false.
Proof.
  intro H. assert (N : host_of u <> []) by (unfold plain_ok in H; rewrite !andb_true_iff in H; destruct H as ((((HN & _) & _) & _) & _); unfold host_of; destruct (pl_name u); [discriminate HN|discriminate]).
  rewrite app_assoc, last_is_app_ne by exact N. apply last_is_without, (without_chars host_char); [reflexivity|apply host_chars, H].
Qed.
Lemma final_ok u : plain_ok u = true -> plain_ok (final u) = true.
Proof.
  intro H. pose proof (drop_default_ok u H) as D. unfold plain_ok in *. unfold final. cbn [pl_name pl_port pl_path] in *. rewrite !andb_true_iff in *. destruct D as ((((D1 & D2) & D3) & D4) & D5). cbn [pl_name pl_path drop_default] in D1, D2, D4, D5. repeat split; try assumption.
  - destruct (pl_pairs u); [|exact D4]. unfold trim_suffix_of. destruct (has_suffix _ _); [|exact D4]. destruct (pl_path u) as [|c p]; [reflexivity|]. cbn [nonempty negb orb] in D4. change (length (B "/")) with 1. cbn [length]. replace (S (length p) - 1) with (length p) by lia. destruct p as [|d p]; [reflexivity|]. cbn [length firstn nonempty negb orb].
    change (B "/") with ["/"%char] in *. cbn [has_prefix] in *. exact D4.
  - destruct (pl_pairs u); [|exact D5]. unfold trim_suffix_of. destruct (has_suffix _ _); [|exact D5]. rewrite forallb_forall in *. intros x Hx. apply D5. rewrite <- (firstn_skipn (length (pl_path u) - length (B "/")) (pl_path u)). apply in_or_app. left. exact Hx.
Qed.
Lemma final_simple u : simple u = true -> simple (final u) = true.
Proof. intro H. pose proof (simple_pairs u H) as P. unfold simple in *. rewrite andb_true_iff in *. destruct H as [H _]. split; [apply final_ok, H|exact P]. Qed.
Lemma normalize_simple u : simple u = true -> normalize_http (write_plain enc_pair u) = (write_plain enc_pair (final u), true).
Proof.
  intro S0. pose proof S0 as H. unfold simple in H. apply andb_true_iff in H as [H _]. pose proof (normalize_plain [] u [] H eq_refl eq_refl) as N. cbn [app] in N. rewrite app_nil_r in N. rewrite N. f_equal.
  pose proof (raw_enc _ (simple_pairs u S0)) as RE. pose proof (drop_default_ok u H) as D. unfold write_plain, base_of. change (pl_pairs (drop_default u)) with (key_sorted (pl_pairs u)). change (pl_pairs (final u)) with (key_sorted (pl_pairs u)).
  unfold query_of at 1. unfold query_of. destruct (key_sorted (pl_pairs u)) as [|p l] eqn:E.
  - apply (proj1 (key_sorted_nil _)) in E. rewrite !app_nil_r. rewrite !app_assoc. rewrite <- (app_assoc (scheme_of (drop_default u))). rewrite trim_slash_app by (intros _; apply head_no_slash, D). unfold final at 3. cbn [pl_path]. rewrite E. rewrite <- !app_assoc. reflexivity.
  - rewrite RE. destruct (pl_pairs u) as [|q r] eqn:EP; [rewrite (proj2 (key_sorted_nil []) eq_refl) in E; discriminate E|]. assert (PF : pl_path (final u) = pl_path (drop_default u)) by (unfold final, drop_default; cbn [pl_path]; rewrite EP; reflexivity). rewrite PF. change (host_of (final u)) with (host_of (drop_default u)). change (scheme_of (final u)) with (scheme_of (drop_default u)). apply trim_suffix_not. rewrite last_slash. destruct (join_nonempty p l) as (x & t & J). rewrite last_is_app, J. change ("?"%char :: x :: t) with (["?"%char] ++ x :: t). rewrite last_is_app, <- J.
    apply last_is_without. apply enc_query_chars; [reflexivity|reflexivity|]. apply char_impl. vm_compute. reflexivity.
Qed.
Lemma host_of_inj u v : plain_ok u = true -> plain_ok v = true -> host_of u = host_of v -> pl_name u = pl_name v /\ pl_port u = pl_port v.
Proof.
  intros H K E. unfold plain_ok in *. rewrite !andb_true_iff in *. destruct H as ((((_ & H1) & H2) & _) & _), K as ((((_ & K1) & K2) & _) & _).
  assert (W : without ":"%char (pl_name u) = true) by (apply (without_chars name_char); [reflexivity|exact H1]). assert (W' : without ":"%char (pl_name v) = true) by (apply (without_chars name_char); [reflexivity|exact K1]).
  unfold host_of in E. apply (f_equal (cut_sep ":"%char)) in E as C. destruct (pl_port u) as [p|], (pl_port v) as [q|].
  - rewrite !cut_sep_app in C by assumption. injection C as -> ->. auto.
  - rewrite cut_sep_app, app_nil_r, cut_sep_without in C by assumption. discriminate C.
  - rewrite cut_sep_app, app_nil_r, cut_sep_without in C by assumption. discriminate C.
  - rewrite !app_nil_r in E. auto.
Qed.
Lemma write_inj u v : plain_ok u = true -> plain_ok v = true -> write_plain enc_pair u = write_plain enc_pair v -> u = v.
Proof.
  intros H K E. apply (f_equal url_parse) in E. rewrite !parse_plain in E by assumption. injection E as E1 E2 E3 E4. destruct (host_of_inj u v H K E2) as [A C]. apply (f_equal parse_query) in E4. rewrite !parse_query_enc in E4.
  destruct u as [t n p q l], v as [t' n' p' q' l']. cbn [pl_name pl_port pl_path pl_pairs scheme_of pl_tls] in *. f_equal; try assumption. unfold scheme_of in E1. cbn [pl_tls] in E1. destruct t, t'; try reflexivity; discriminate E1.
Qed.
(** ** Two simple urls get the same form exactly when they have the same scheme, name, port up to the default one, for every key the same values in the same order, and the same path
    up to one slash at the end; that slash counts when there is a query. *)
Definition used_port (u : plain) : str := match pl_port u with Some p => p | None => if pl_tls u then B "443" else B "80" end.
Theorem C113_same_exactly u v : simple u = true -> simple v = true ->
  (normalize_http (write_plain enc_pair u) = normalize_http (write_plain enc_pair v) <->
   pl_tls u = pl_tls v /\ pl_name u = pl_name v /\ used_port u = used_port v /\ (forall k, of_key k (pl_pairs u) = of_key k (pl_pairs v)) /\
   (if match pl_pairs u with [] => true | _ => false end then trim_suffix_of (B "/") (pl_path u) = trim_suffix_of (B "/") (pl_path v) else pl_path u = pl_path v)).
Proof.
  intros H K. rewrite (normalize_simple u H), (normalize_simple v K). pose proof H as H0. pose proof K as K0. unfold simple in H0, K0. apply andb_true_iff in H0 as [H0 _], K0 as [K0 _].
  assert (X : (write_plain enc_pair (final u), true) = (write_plain enc_pair (final v), true) <-> final u = final v).
  { split; [|intros ->; reflexivity]. intro E. apply (f_equal fst) in E. apply write_inj; [apply final_ok, H0|apply final_ok, K0|exact E]. }
  rewrite X. clear X. assert (SP : key_sorted (pl_pairs u) = key_sorted (pl_pairs v) <-> forall k, of_key k (pl_pairs u) = of_key k (pl_pairs v)).
  { destruct (key_sorted_spec (pl_pairs u)) as [A1 A2], (key_sorted_spec (pl_pairs v)) as [B1 B2]. split.
    - intros E k. rewrite <- A2, E. apply B2.
    - intro E. apply sorted_unique; [assumption|assumption|]. intro x. rewrite A2, B2. apply E. }
  assert (PP : pl_tls u = pl_tls v -> (pl_port (drop_default u) = pl_port (drop_default v) <-> used_port u = used_port v)).
  { intro T. unfold drop_default, used_port. cbn [pl_port]. rewrite T. destruct (pl_port u) as [p|], (pl_port v) as [q|]; try tauto;
      repeat match goal with |- context [seqb ?a ?b] => destruct (seqb_spec a b) as [?|?] end; split; intro Q; congruence. }
  unfold final. split.
  - intro E. injection E as E1 E2 E3 E4 E5. split; [exact E1|]. split; [exact E2|]. split; [apply (PP E1), E3|]. pose proof E5 as E6. rewrite SP in E6. split; [exact E6|].
    assert (N : pl_pairs u = [] <-> pl_pairs v = []) by (rewrite <- (key_sorted_nil (pl_pairs u)), <- (key_sorted_nil (pl_pairs v)), E5; tauto). destruct (pl_pairs u), (pl_pairs v); try exact E4; [destruct N as [N _]; discriminate (N eq_refl)|destruct N as [_ N]; discriminate (N eq_refl)].
  - intros (E1 & E2 & E3 & E4 & E5). rewrite <- SP in E4. f_equal; [exact E1|exact E2|apply (PP E1), E3| |exact E4].
    assert (N : pl_pairs u = [] <-> pl_pairs v = []) by (rewrite <- (key_sorted_nil (pl_pairs u)), <- (key_sorted_nil (pl_pairs v)), E4; tauto). destruct (pl_pairs u), (pl_pairs v); try exact E5; [destruct N as [N _]; discriminate (N eq_refl)|destruct N as [_ N]; discriminate (N eq_refl)].
Qed.
(** ** Doing it twice changes nothing exactly when the path does not end in two slashes with no query behind. *)
Theorem C113_idempotent_exactly u : simple u = true ->
  (normalize_http (fst (normalize_http (write_plain enc_pair u))) = normalize_http (write_plain enc_pair u) <-> ~ (pl_pairs u = [] /\ exists p, pl_path u = p ++ B "//")).
Proof.
  intro H. rewrite (normalize_simple u H). cbn [fst]. rewrite (normalize_simple _ (final_simple u H)). pose proof H as H0. unfold simple in H0. apply andb_true_iff in H0 as [H0 _].
  assert (X : (write_plain enc_pair (final (final u)), true) = (write_plain enc_pair (final u), true) <-> final (final u) = final u).
  { split; [|intros ->; reflexivity]. intro E. apply (f_equal fst) in E. apply write_inj; [apply final_ok, final_ok, H0|apply final_ok, H0|exact E]. }
  rewrite X. clear X.
  assert (KS : key_sorted (key_sorted (pl_pairs u)) = key_sorted (pl_pairs u)).
  { destruct (key_sorted_spec (pl_pairs u)) as [A1 A2]. destruct (key_sorted_spec (key_sorted (pl_pairs u))) as [B1 B2]. apply sorted_unique; assumption. }
  assert (PD : pl_port (drop_default (final u)) = pl_port (final u)).
  { unfold final, drop_default. cbn [pl_port pl_tls]. destruct (pl_port u) as [p|]; [|reflexivity]. destruct (seqb p _) eqn:E; [reflexivity|]. rewrite E. reflexivity. }
  assert (PE : final (final u) = final u <-> pl_path (final (final u)) = pl_path (final u)).
  { split; [intros ->; reflexivity|]. intro E. unfold final at 1. rewrite PD. change (pl_pairs (final u)) with (key_sorted (pl_pairs u)). rewrite KS. change (pl_path (final (final u))) with (match key_sorted (pl_pairs u) with [] => trim_suffix_of (B "/") (pl_path (final u)) | _ => pl_path (final u) end) in E. rewrite E. reflexivity. }
  rewrite PE. change (pl_path (final (final u))) with (match key_sorted (pl_pairs u) with [] => trim_suffix_of (B "/") (pl_path (final u)) | _ => pl_path (final u) end).
  destruct (pl_pairs u) as [|q l] eqn:EP.
  - change (key_sorted []) with (@nil (str * str)). cbn iota. assert (PF : pl_path (final u) = trim_suffix_of (B "/") (pl_path u)) by (unfold final; cbn [pl_path]; rewrite EP; reflexivity). rewrite PF.
    assert (TS : forall s, trim_suffix_of (B "/") s = s <-> has_suffix s (B "/") = false).
    { intro s. split; [|apply trim_suffix_not]. intro E. destruct (has_suffix s (B "/")) eqn:S0; [|reflexivity]. apply has_suffix_spec in S0 as [a ->]. rewrite trim_suffix_app in E. apply (f_equal (@length ascii)) in E. rewrite app_length in E. cbn in E. lia. }
    rewrite TS. split.
    + intros E [_ [p Q]]. rewrite Q in E. change (B "//") with (B "/" ++ B "/") in E. rewrite app_assoc, trim_suffix_app in E. rewrite (proj2 (has_suffix_spec _ _) (ex_intro _ p eq_refl)) in E. discriminate E.
    + intro N. destruct (has_suffix (trim_suffix_of _ _) _) eqn:S0; [|reflexivity]. exfalso. apply N. split; [reflexivity|]. apply has_suffix_spec in S0 as [a S0]. exists a. destruct (has_suffix (pl_path u) (B "/")) eqn:S1.
      * apply has_suffix_spec in S1 as [b S1]. rewrite S1, trim_suffix_app in S0. subst b. rewrite S1, <- app_assoc. reflexivity.
      * rewrite (trim_suffix_not _ _ S1) in S0. rewrite S0 in S1. rewrite (proj2 (has_suffix_spec _ _) (ex_intro _ a eq_refl)) in S1. discriminate S1.
  - destruct (key_sorted (q :: l)) as [|p r] eqn:E; [apply (proj1 (key_sorted_nil _)) in E; discriminate E|]. split; [|reflexivity]. intros _ [Q _]. discriminate Q.
Qed.
Definition demo_url : plain := mkPlain true (B "mint.example.com") (Some (B "443")) (B "/v1/") [(B "b", B "2"); (B "a", B "1"); (B "b", B "0")].
Example C113_example : simple demo_url = true /\ write_plain enc_pair demo_url = B "https://mint.example.com:443/v1/?b=2&a=1&b=0" /\
  normalize_http (B "  https://mint.example.com:443/v1/?b=2&a=1&b=0 ") = (B "https://mint.example.com/v1/?a=1&b=2&b=0", true) /\
  has_prefix (pl_name demo_url) (B "http") = false.
Proof. vm_compute. repeat split. Qed.
Example C113_no_query_example : simple (mkPlain false (B "x.org") None (B "/a/") []) = true /\ normalize_http (B "http://x.org/a/") = (B "http://x.org/a", true).
Proof. vm_compute. split; reflexivity. Qed.
(** ** False: different urls stay different. Keys and values are written without their escapes: one pair whose value holds "&" and "=" cannot be told from two pairs. *)
Theorem C113_merged u k v k' v' : plain_ok u = true -> scmp k k' <> Gt -> let with_pairs l := mkPlain (pl_tls u) (pl_name u) (pl_port u) (pl_path u) l in
  normalize_http (write_plain enc_pair (with_pairs [(k, v ++ "&"%char :: k' ++ "="%char :: v')])) = normalize_http (write_plain enc_pair (with_pairs [(k, v); (k', v')])).
Proof.
  intros H L w. assert (O : forall l, plain_ok (w l) = true) by (intro l; exact H).
  pose proof (normalize_plain [] (w [(k, v ++ "&"%char :: k' ++ "="%char :: v')]) [] (O _) eq_refl eq_refl) as N1. pose proof (normalize_plain [] (w [(k, v); (k', v')]) [] (O _) eq_refl eq_refl) as N2. cbn [app] in N1, N2. rewrite app_nil_r in N1, N2. rewrite N1, N2. do 2 f_equal.
  assert (S1 : key_sorted [(k, v ++ "&"%char :: k' ++ "="%char :: v')] = [(k, v ++ "&"%char :: k' ++ "="%char :: v')]) by reflexivity.
  assert (S2 : key_sorted [(k, v); (k', v')] = [(k, v); (k', v')]).
  { destruct (key_sorted_spec [(k, v); (k', v')]) as [A1 A2]. apply sorted_unique; [exact A1| |exact A2]. repeat (apply SSorted_cons || apply SSorted_nil || apply Forall_cons || apply Forall_nil). exact L. }
  unfold write_plain, drop_default, w. cbn [pl_pairs pl_tls pl_name pl_port pl_path]. rewrite S1, S2. unfold base_of, host_of, scheme_of. cbn [pl_pairs pl_tls pl_name pl_port pl_path]. f_equal. cbn [query_of map join_amp raw_pair fst snd]. unfold raw_pair. cbn [fst snd]. rewrite <- ?app_assoc. cbn [app]. rewrite <- ?app_assoc. reflexivity.
Qed.
Theorem C113_distinct_refuted : exists s t, s <> t /\ url_parse s <> url_parse t /\ normalize_http s = normalize_http t.
Proof. exists (B "https://x.org/?a=1%26b=2"), (B "https://x.org/?a=1&b=2"). vm_compute. repeat split; discriminate. Qed.
(** False: doing it twice is doing it once; after the second time the value is lost. *)
Theorem C113_idempotent_refuted : exists s r t, normalize_http s = (r, true) /\ normalize_http r = (t, true) /\ r <> t /\ query_values (hu_query (match url_parse s with Some h => h | None => mkHUrl [] [] [] false [] [] false [] [] [] end)) = [(B "a", [B "&"])] /\ t = B "https://x.org/?a=".
Proof. exists (B "https://x.org/?a=%26"), (B "https://x.org/?a=&"), (B "https://x.org/?a="). vm_compute. repeat split; discriminate. Qed.
(** False: the result is a url: an escaped line break comes out as a line break, and the next call fails. *)
Theorem C113_valid_refuted : exists s r, normalize_http s = (r, true) /\ url_parse r = None.
Proof. exists (B "https://x.org/?a=%0A"). eexists. split; vm_compute; reflexivity. Qed.
(** False: a slash at the end of a value is kept; a number sign stays inside the query. *)
Theorem C113_value_kept_refuted : normalize_http (B "https://x.org/?next=/") = (B "https://x.org/?next=", true) /\ normalize_http (B "https://x.org/?a=%23b") = (B "https://x.org/?a=#b", true).
Proof. vm_compute. split; reflexivity. Qed.
(** False: a url without a scheme becomes https, the scheme and the name are read in any case. *)
Theorem C113_scheme_refuted : normalize_http (B "httpbin.org") = (B "http://httpbin.org", true) /\ normalize_http (B "HTTPS://x.org") = (B "https://HTTPS://x.org", true) /\ normalize_http (B "https://X.org") <> normalize_http (B "https://x.org").
Proof. vm_compute. repeat split. discriminate. Qed.

(** ** Fragments, an empty query, and the scheme "httpS" *)
Definition frag_char (c : ascii) : bool := negb (should_escape MFragment c).
(** A fragment that needs no escape stays, after the query. *)
Theorem C113_fragment u v f : plain_ok u = true -> canonical u v -> f <> [] -> forallb frag_char f = true ->
  normalize_http (write_plain enc_pair u ++ "#"%char :: f) = (trim_suffix_of (B "/") (write_plain raw_pair v ++ "#"%char :: f), true).
Proof.
  intros H C NF F. apply canonical_is in C as ->. pose proof (plain_wide u H) as W. unfold normalize_http.
  assert (FS : forall c, frag_char c = true -> negb (is_space c) = true) by (apply char_impl; vm_compute; reflexivity).
  assert (T : trim_space (write_plain enc_pair u ++ "#"%char :: f) = write_plain enc_pair u ++ "#"%char :: f).
  { pose proof (trim_space_plain [] (write_plain enc_pair u ++ "#"%char :: f) [] eq_refl eq_refl) as T. cbn [app] in T. rewrite app_nil_r in T. apply T; [destruct (write_plain enc_pair u); discriminate|]. rewrite forallb_app. apply andb_true_iff. split.
    - eapply forallb_impl; [|exact W]. intro c. unfold wide_char. rewrite !andb_true_iff. tauto.
    - cbn [forallb]. apply andb_true_iff. split; [reflexivity|]. eapply forallb_impl; [exact FS|exact F]. }
  rewrite T. assert (HP : has_prefix (write_plain enc_pair u ++ "#"%char :: f) (B "http") = true) by (unfold write_plain, base_of, scheme_of; destruct (pl_tls u); reflexivity). rewrite HP.
  assert (ST : set_text MFragment f = Some (f, [])).
  { unfold set_text. rewrite unescape_plain by (eapply forallb_impl; [|exact F]; apply char_impl; vm_compute; reflexivity). rewrite escape_plain by exact F. rewrite seqb_refl. reflexivity. }
  assert (PU : url_parse (write_plain enc_pair u ++ "#"%char :: f) = Some (mkHUrl (scheme_of u) [] (host_of u) false (pl_path u) [] false (join_amp (map enc_pair (pl_pairs u))) f [])).
  { unfold url_parse, cut_or. rewrite cut_sep_app by (apply (without_chars wide_char); [reflexivity|exact W]). rewrite (parse_plain_before u H), ST. reflexivity. }
  rewrite PU. cbn [hu_scheme]. assert (FI : finish (mkHUrl (scheme_of u) [] (host_of u) false (pl_path u) [] false (join_amp (map enc_pair (pl_pairs u))) f []) = trim_suffix_of (B "/") (write_plain raw_pair (drop_default u) ++ "#"%char :: f)).
  { rewrite <- (string_plain u H). unfold finish. f_equal. unfold url_string at 1 2. unfold cleaned, plain_hurl. cbn [hu_scheme hu_opaque hu_host hu_omit hu_path hu_rawpath hu_force hu_query hu_frag hu_rawfrag]. destruct f as [|x f]; [congruence|]. cbn [nonempty]. rewrite app_nil_r.
    assert (ET : escaped_text MFragment (x :: f) [] = x :: f) by (unfold escaped_text; rewrite (escape_plain MFragment _ F); destruct (seqb _ _); reflexivity). rewrite ET. rewrite <- !app_assoc. reflexivity. }
  rewrite FI. unfold scheme_of. destruct (pl_tls u); reflexivity.
Qed.
(** A question mark with nothing after it stays, so such a url does not get the form of the url without it. *)
Theorem C113_empty_query u : plain_ok u = true -> pl_pairs u = [] ->
  normalize_http (write_plain enc_pair u ++ B "?") = (write_plain raw_pair (drop_default u) ++ B "?", true) /\
  fst (normalize_http (write_plain enc_pair u ++ B "?")) <> fst (normalize_http (write_plain enc_pair u)).
Proof.
  intros H NP. pose proof (plain_wide u H) as W.
  assert (E : write_plain enc_pair u = base_of u) by (unfold write_plain; rewrite NP; cbn [query_of]; apply app_nil_r). rewrite E in *.
  assert (KS : key_sorted (pl_pairs u) = []) by (rewrite NP; reflexivity).
  assert (E2 : write_plain raw_pair (drop_default u) = base_of (drop_default u)) by (unfold write_plain, drop_default at 2; cbn [pl_pairs]; rewrite KS; cbn [query_of]; apply app_nil_r).
  assert (N1 : normalize_http (base_of u ++ B "?") = (write_plain raw_pair (drop_default u) ++ B "?", true)).
  { unfold normalize_http. assert (T : trim_space (base_of u ++ B "?") = base_of u ++ B "?").
    { pose proof (trim_space_plain [] (base_of u ++ B "?") [] eq_refl eq_refl) as T. cbn [app] in T. rewrite app_nil_r in T. apply T; [destruct (base_of u); discriminate|]. rewrite forallb_app. apply andb_true_iff. split; [|reflexivity]. eapply forallb_impl; [|exact W]. intro c. unfold wide_char. rewrite !andb_true_iff. tauto. }
    rewrite T. assert (HP : has_prefix (base_of u ++ B "?") (B "http") = true) by (unfold base_of, scheme_of; destruct (pl_tls u); reflexivity). rewrite HP.
    assert (WQ : forallb wide_char (base_of u ++ B "?") = true) by (rewrite forallb_app, W; reflexivity).
    assert (PU : url_parse (base_of u ++ B "?") = Some (mkHUrl (scheme_of u) [] (host_of u) false (pl_path u) [] true [] [] [])).
    { unfold url_parse, cut_or. rewrite cut_sep_without by (apply (without_chars wide_char); [reflexivity|exact WQ]).
      assert (Q : parse_before_fragment (base_of u ++ B "?") = Some (mkHUrl (scheme_of u) [] (host_of u) false (pl_path u) [] true [] [] [])); [|rewrite Q; reflexivity].
      pose proof (parse_plain_before u H) as P. rewrite E in P. unfold parse_before_fragment in *.
      assert (NC : forall s, forallb wide_char s = true -> existsb is_ctl s = false). { intros s WS. destruct (existsb is_ctl s) eqn:EX; [|reflexivity]. apply existsb_exists in EX as (x & Hx & EX). rewrite forallb_forall in WS. specialize (WS x Hx). unfold wide_char in WS. rewrite EX, andb_false_r in WS. discriminate WS. }
      rewrite (NC _ W) in P. rewrite (NC _ WQ). unfold base_of in *. rewrite <- !app_assoc in *. rewrite plain_not_star in *. change (B "://") with (":"%char :: B "//") in *. cbn [app] in *. rewrite get_scheme_of in *. cbn iota in P. cbn iota.
      replace (map lower (scheme_of u)) with (scheme_of u) in * by (unfold scheme_of; destruct (pl_tls u); reflexivity).
      assert (HQ : without "?"%char (B "//" ++ host_of u ++ pl_path u) = true).
      { rewrite !without_app, !andb_true_iff. split; [reflexivity|]. split; [apply (without_chars host_char); [reflexivity|apply host_chars, H]|]. apply (without_chars path_char); [reflexivity|]. unfold plain_ok in H. rewrite !andb_true_iff in H. apply H. }
      replace (B "//" ++ host_of u ++ pl_path u ++ B "?") with ((B "//" ++ host_of u ++ pl_path u) ++ "?"%char :: []) by (rewrite <- !app_assoc; reflexivity).
      set (hp := B "//" ++ host_of u ++ pl_path u) in *. rewrite last_is_app in *. change (last_is "?"%char ["?"%char]) with true. cbn [andb].
      assert (CN : length (filter (ceqb "?"%char) (hp ++ ["?"%char])) = 1). { rewrite filter_app, app_length. assert (Z0 : filter (ceqb "?"%char) hp = []); [|rewrite Z0; reflexivity]. clearbody hp. clear -HQ. induction hp as [|x r IH]; [reflexivity|]. cbn [filter]. unfold without in HQ. cbn [forallb] in HQ. apply andb_true_iff in HQ as [Q1 Q2]. unfold ceqb in *. rewrite Ascii.eqb_sym. destruct (Ascii.eqb x "?"%char); [discriminate Q1|]. apply IH, Q2. }
      rewrite CN. cbn [Nat.eqb]. rewrite removelast_last. rewrite (last_is_without _ _ HQ) in P. cbn [andb] in P. unfold cut_or in P at 1. rewrite (cut_sep_without _ _ HQ) in P.
      change (has_prefix hp (B "/")) with true in *. cbn [negb andb] in *.
      assert (SC : match scheme_of u with [] => false | _ => true end = true) by (unfold scheme_of; destruct (pl_tls u); reflexivity). rewrite SC in *. change (has_prefix hp (B "//")) with true in *. cbn [negb andb orb] in *.
      revert P. match goal with |- (let '(x, y) := ?t in _) = _ -> (let '(z, w) := ?t2 in _) = _ => change t2 with t; destruct t as [au pa] end. intro P. destruct (parse_host au) as [ho|]; [|discriminate P]. destruct (set_text MPath pa) as [[px rx]|]; [|discriminate P].
      unfold plain_hurl in P. rewrite NP in P. cbn [map join_amp] in P. assert (P1 : ho = host_of u) by congruence. assert (P2 : px = pl_path u) by congruence. assert (P3 : rx = []) by congruence. rewrite P1, P2, P3. reflexivity. }
    rewrite PU. cbn [hu_scheme]. assert (FI : finish (mkHUrl (scheme_of u) [] (host_of u) false (pl_path u) [] true [] [] []) = write_plain raw_pair (drop_default u) ++ B "?").
    { rewrite <- (string_plain u H). unfold finish. assert (US : url_string (cleaned (mkHUrl (scheme_of u) [] (host_of u) false (pl_path u) [] true [] [] [])) = url_string (cleaned (plain_hurl u)) ++ B "?").
      { unfold url_string, cleaned, plain_hurl. cbn [hu_scheme hu_opaque hu_host hu_omit hu_path hu_rawpath hu_force hu_query hu_frag hu_rawfrag]. rewrite NP. change (clean_query (join_amp (map enc_pair []))) with (@nil ascii). change (clean_query []) with (@nil ascii). cbn [nonempty orb]. rewrite !app_nil_r. reflexivity. }
      unfold cleaned at 1 in US. cbn [hu_scheme hu_opaque hu_host hu_omit hu_path hu_rawpath hu_force hu_query hu_frag hu_rawfrag] in US. cbn [hu_scheme hu_opaque hu_host hu_omit hu_path hu_rawpath hu_force hu_query hu_frag hu_rawfrag]. rewrite US. apply trim_suffix_not. rewrite last_slash. change (B "?") with ["?"%char]. rewrite last_is_app. reflexivity. }
    rewrite FI. unfold scheme_of. destruct (pl_tls u); reflexivity. }
  split; [exact N1|]. rewrite N1. pose proof (normalize_plain [] u [] H eq_refl eq_refl) as N2. cbn [app] in N2. rewrite app_nil_r, E in N2. rewrite N2. cbn [fst]. rewrite E2. intro Q. assert (LQ : last_is "?"%char (trim_suffix_of (B "/") (base_of (drop_default u))) = true) by (rewrite <- Q; change (B "?") with ["?"%char]; rewrite last_is_app; reflexivity).
  assert (WB : without "?"%char (base_of (drop_default u)) = true).
  { pose proof (drop_default_ok u H) as H'. unfold base_of. rewrite !without_app, !andb_true_iff. split; [unfold scheme_of; destruct (pl_tls _); reflexivity|]. split; [reflexivity|]. split; [apply (without_chars host_char); [reflexivity|apply host_chars, H']|]. apply (without_chars path_char); [reflexivity|]. unfold plain_ok in H'. rewrite !andb_true_iff in H'. apply H'. }
  assert (WT : without "?"%char (trim_suffix_of (B "/") (base_of (drop_default u))) = true). { unfold trim_suffix_of. destruct (has_suffix _ _); [|exact WB]. unfold without in *. rewrite forallb_forall in *. intros x X. apply WB. rewrite <- (firstn_skipn (length (base_of (drop_default u)) - length (B "/")) (base_of (drop_default u))). apply in_or_app. left. exact X. }
  rewrite (last_is_without _ _ WT) in LQ. discriminate LQ.
Qed.
(** Of the letters of the scheme only the last may be a capital. *)
Theorem C113_capital_s u : plain_ok u = true -> pl_tls u = true -> normalize_http (B "httpS" ++ skipn 5 (write_plain enc_pair u)) = normalize_http (write_plain enc_pair u).
Proof.
  intros H T. pose proof (plain_wide u H) as W. assert (E : exists r, write_plain enc_pair u = B "https:" ++ r) by (unfold write_plain, base_of, scheme_of; rewrite T; rewrite <- !app_assoc; eexists; reflexivity). destruct E as [r E]. rewrite E in *.
  change (B "httpS" ++ skipn 5 (B "https:" ++ r)) with (B "httpS:" ++ r).
  assert (TS : forall x, forallb wide_char (x ++ r) = true -> x <> [] -> trim_space (x ++ r) = x ++ r).
  { intros x WX NX. pose proof (trim_space_plain [] (x ++ r) [] eq_refl eq_refl) as T0. cbn [app] in T0. rewrite app_nil_r in T0. apply T0; [destruct x; [congruence|discriminate]|]. eapply forallb_impl; [|exact WX]. intro c. unfold wide_char. rewrite !andb_true_iff. tauto. }
  unfold normalize_http. rewrite (TS (B "httpS:")) by (first [discriminate|exact W]). rewrite (TS (B "https:")) by (first [discriminate|exact W]).
  change (has_prefix (B "httpS:" ++ r) (B "http")) with true. change (has_prefix (B "https:" ++ r) (B "http")) with true. cbn iota.
  pose proof (parse_plain u H) as P. rewrite E in P. assert (PS : url_parse (B "httpS:" ++ r) = url_parse (B "https:" ++ r)).
  { unfold url_parse, cut_or. rewrite !cut_sep_without by (apply (without_chars wide_char); [reflexivity|exact W]). assert (Q : parse_before_fragment (B "httpS:" ++ r) = parse_before_fragment (B "https:" ++ r)) by reflexivity. rewrite Q. reflexivity. }
  rewrite PS, P. cbn [hu_scheme plain_hurl]. unfold scheme_of. rewrite T. reflexivity.
Qed.
Example C113_more_example : plain_ok (mkPlain true (B "x.org") (Some (B "443")) (B "/a") []) = true /\ forallb frag_char (B "top") = true /\
  normalize_http (B "https://x.org:443/a#top") = (B "https://x.org/a#top", true) /\ normalize_http (B "https://x.org:443/a?") = (B "https://x.org/a?", true) /\ normalize_http (B "httpS://x.org/a") = (B "https://x.org/a", true).
Proof. vm_compute. repeat split. Qed.

Print Assumptions C113_canonical_exists.
Print Assumptions C113_plain.
Print Assumptions C113_https.
Print Assumptions C113_same_exactly.
Print Assumptions C113_idempotent_exactly.
Print Assumptions C113_merged.
Print Assumptions C113_distinct_refuted.
Print Assumptions C113_idempotent_refuted.
Print Assumptions C113_valid_refuted.
Print Assumptions C113_value_kept_refuted.
Print Assumptions C113_scheme_refuted.

Print Assumptions C113_fragment.
Print Assumptions C113_empty_query.
Print Assumptions C113_capital_s.

(** ** Escapes, spaces and control characters in the path *)
(** The six blank characters of ASCII are tab, newline, vertical tab, form feed, return and space. *)
Definition blank (c : ascii) : Prop := In (val c) [9; 10; 11; 12; 13; 32]%N.
Theorem C113_blanks a u b v : plain_ok u = true -> canonical u v -> Forall blank a -> Forall blank b ->
  normalize_http (a ++ write_plain enc_pair u ++ b) = (trim_suffix_of (B "/") (write_plain raw_pair v), true).
Proof.
  intros H C Ha Hb. assert (K : forall s, Forall blank s -> forallb is_space s = true).
  { intros s F. rewrite forallb_forall. rewrite Forall_forall in F. intros x X. specialize (F x X). unfold blank in F. unfold is_space. cbn [In] in F.
    destruct F as [F|[F|[F|[F|[F|[F|[]]]]]]]; rewrite <- F; reflexivity. }
  apply C113_plain; auto.
Qed.
Example C113_blanks_example : Forall blank (B "  ") /\ Forall blank [ascii_of_N 9; ascii_of_N 13; ascii_of_N 10].
Proof. split; repeat constructor; unfold blank; vm_compute; tauto. Qed.
(** A byte below 32, or 127, before the fragment: not a url. *)
Theorem C113_control s x t : (val x < 32 \/ val x = 127)%N -> ~ In "#"%char s -> url_parse (s ++ x :: t) = None.
Proof.
  intros V N. assert (IC : is_ctl x = true). { unfold is_ctl. destruct V as [V|V]; [apply N.ltb_lt in V; rewrite V; reflexivity|rewrite V; reflexivity]. }
  assert (XH : x <> "#"%char) by (intros ->; vm_compute in V; destruct V as [V|V]; discriminate V).
  assert (WS : without "#"%char (s ++ [x]) = true).
  { unfold without. rewrite forallb_forall. intros y Y. apply in_app_or in Y. apply negb_true_iff, ceqb_neq. destruct Y as [Y|[Y|[]]]; congruence. }
  unfold url_parse. replace (s ++ x :: t) with ((s ++ [x]) ++ t) by (rewrite <- app_assoc; reflexivity).
  assert (EX : forall r, existsb is_ctl ((s ++ [x]) ++ r) = true) by (intro r; apply existsb_exists; exists x; split; [apply in_or_app; left; apply in_or_app; right; left; reflexivity|exact IC]).
  destruct (cut_or "#"%char ((s ++ [x]) ++ t)) as [u f] eqn:E. assert (U : exists r, u = (s ++ [x]) ++ r).
  { clear IC EX N V XH. revert u E. generalize (s ++ [x]) as w, WS. clear. induction w as [|y w IH]; intros W u E; [exists u; reflexivity|]. unfold without in W. cbn [forallb] in W. apply andb_true_iff in W as [W1 W2].
    cbn [app] in E. unfold cut_or in *. cbn [cut_sep] in E. apply negb_true_iff in W1. rewrite W1 in E. destruct (cut_sep "#"%char (w ++ t)) as [[p q]|] eqn:Q.
    - injection E as <- <-. destruct (IH W2 p eq_refl) as [r ->]. exists r. reflexivity.
    - injection E as <- <-. exists t. reflexivity. }
  destruct U as [r ->]. unfold parse_before_fragment. rewrite EX. reflexivity.
Qed.
Example C113_control_example : url_parse (B "https://x.org/a" ++ ascii_of_N 31 :: B "b") = None /\ url_parse (B "https://x.org/a#" ++ ascii_of_N 31 :: B "b") <> None.
Proof. vm_compute. split; [reflexivity|discriminate]. Qed.

(** What a path may hold besides "/", letters, digits and "$&+,:;=@-_.~": these too are kept by net/url if the text had them. *)
Definition loose_char (c : ascii) : bool := path_char c || one_of "!$&'()*+,;=:@[]%" c || ceqb c " "%char.
Lemma loose_parse n q t : nonempty n = true -> forallb name_char n = true -> forallb loose_char q = true -> url_unescape MPath ("/"%char :: q) = Some t ->
  url_parse (B "https://" ++ n ++ "/"%char :: q) = Some (mkHUrl (B "https") [] n false t (if seqb (url_escape MPath t) ("/"%char :: q) then [] else "/"%char :: q) false [] [] []).
Proof.
  intros NE HN HQ U. set (p := "/"%char :: q) in *. assert (HP : forallb loose_char p = true) by (unfold p; cbn [forallb]; rewrite HQ; reflexivity). 
  assert (NL : forallb loose_char n = true) by (eapply forallb_impl; [|exact HN]; apply char_impl; vm_compute; reflexivity).
  assert (WA : forall c, loose_char c = false -> c <> ":"%char -> without c (B "https://" ++ n ++ p) = true).
  { intros c LC CC. rewrite !without_app, !andb_true_iff. split; [|split; apply (without_chars loose_char); assumption]. unfold without. rewrite forallb_forall. intros y Y. apply negb_true_iff, ceqb_neq. intros ->. assert (G : loose_char c = true); [|congruence].
    assert (G2 : forallb loose_char (B "https://") = true) by reflexivity. rewrite forallb_forall in G2. apply G2, Y. }
  unfold url_parse, cut_or at 1. rewrite cut_sep_without by (apply WA; [reflexivity|discriminate]).
  unfold parse_before_fragment. assert (NC : existsb is_ctl (B "https://" ++ n ++ p) = false).
  { destruct (existsb _ _) eqn:E; [|reflexivity]. apply existsb_exists in E as (x & Hx & E). assert (G : loose_char x = true).
    { assert (A : forallb loose_char (B "https://" ++ n ++ p) = true) by (rewrite !forallb_app, NL, HP; reflexivity). rewrite forallb_forall in A. apply A, Hx. }
    assert (K : negb (is_ctl x) = true) by (revert G; apply (char_impl loose_char (fun x => negb (is_ctl x))); vm_compute; reflexivity). rewrite E in K. discriminate K. }
  rewrite NC. change (seqb (B "https://" ++ n ++ p) (B "*")) with false. cbn iota. change (B "https://" ++ n ++ p) with (B "https:" ++ B "//" ++ n ++ p). change (get_scheme (B "https:" ++ B "//" ++ n ++ p)) with (Some (B "https", B "//" ++ n ++ p)). cbn iota. change (map lower (B "https")) with (B "https").
  assert (WQ : without "?"%char (B "//" ++ n ++ p) = true).
  { rewrite !without_app, !andb_true_iff. split; [reflexivity|]. split; apply (without_chars loose_char); first [reflexivity|assumption]. }
  cbv zeta. rewrite (last_is_without _ _ WQ). cbn [andb]. unfold cut_or at 1. rewrite (cut_sep_without _ _ WQ). change (has_prefix (B "//" ++ n ++ p) (B "/")) with true. change (has_prefix (B "//" ++ n ++ p) (B "//")) with true. cbn [negb andb orb].
  change (skipn 2 (B "//" ++ n ++ p)) with (n ++ p). assert (HS : without "/"%char n = true) by (apply (without_chars name_char); [reflexivity|exact HN]).
  assert (AU : match index (n ++ p) (B "/") with Some i => (firstn i (n ++ p), skipn i (n ++ p)) | None => (n ++ p, []) end = (n, p)).
  { unfold p. rewrite index_slash by exact HS. rewrite firstn_app, Nat.sub_diag, firstn_all, skipn_app, Nat.sub_diag, skipn_all. cbn [firstn skipn app]. rewrite app_nil_r. reflexivity. }
  rewrite AU.
  assert (PH : parse_host n = Some n).
  { pose proof (host_parse (mkPlain true n None [] [])) as P0. unfold host_of in P0. cbn [pl_name pl_port] in P0. rewrite app_nil_r in P0. apply P0. unfold plain_ok. cbn [pl_name pl_port pl_path nonempty negb orb forallb]. rewrite NE, HN. reflexivity. }
  change (match B "https" with [] => false | _ :: _ => true end) with true. cbn [orb andb negb]. rewrite PH. unfold set_text at 1. rewrite U. reflexivity.
Qed.
Lemma loose_normalize n q t : nonempty n = true -> forallb name_char n = true -> forallb loose_char q = true -> last_is " "%char q = false -> url_unescape MPath ("/"%char :: q) = Some t ->
  normalize_http (B "https://" ++ n ++ "/"%char :: q) = (trim_suffix_of (B "/") (B "https://" ++ n ++ escaped_text MPath t (if seqb (url_escape MPath t) ("/"%char :: q) then [] else "/"%char :: q)), true).
Proof.
  intros NE HN HQ HL U. unfold normalize_http.
  assert (T : trim_space (B "https://" ++ n ++ "/"%char :: q) = B "https://" ++ n ++ "/"%char :: q).
  { unfold trim_space. change (trim_left (B "https://" ++ n ++ "/"%char :: q)) with (B "https://" ++ n ++ "/"%char :: q).
    assert (LL : exists r x, B "https://" ++ n ++ "/"%char :: q = r ++ [x] /\ is_space x = false).
    { destruct q as [|y q0] using rev_ind; [exists (B "https://" ++ n), "/"%char; split; [rewrite <- app_assoc; reflexivity|reflexivity]|]. exists (B "https://" ++ n ++ "/"%char :: q0), y. split; [rewrite <- !app_assoc; reflexivity|].
      assert (LY : loose_char y = true) by (rewrite forallb_forall in HQ; apply HQ, in_or_app; right; left; reflexivity).
      assert (YS : y <> " "%char) by (intros ->; rewrite last_is_app in HL; discriminate HL).
      destruct (is_space y) eqn:IS; [|reflexivity]. exfalso. apply YS. assert (K : forall c, loose_char c && is_space c = true -> ceqb c " "%char = true) by (apply char_impl; vm_compute; reflexivity). apply Ascii.eqb_eq, K. rewrite LY, IS. reflexivity. }
    destruct LL as (r & x & -> & X). rewrite rev_app_distr. cbn [rev app trim_left]. rewrite X. change (x :: rev r) with ([x] ++ rev r). rewrite rev_app_distr, rev_involutive. reflexivity. }
  rewrite T. change (has_prefix (B "https://" ++ n ++ "/"%char :: q) (B "http")) with true. cbn iota. rewrite (loose_parse n q t NE HN HQ U). cbn [hu_scheme].
  match goal with |- context [finish ?h] => set (hh := h) end.
  assert (F : finish hh = trim_suffix_of (B "/") (B "https://" ++ n ++ escaped_text MPath t (if seqb (url_escape MPath t) ("/"%char :: q) then [] else "/"%char :: q))).
  { unfold hh, finish. cbn [hu_scheme hu_opaque hu_host hu_omit hu_path hu_rawpath hu_force hu_query hu_frag hu_rawfrag]. f_equal. change (clean_query []) with (@nil ascii). set (raw := if seqb (url_escape MPath t) ("/"%char :: q) then [] else "/"%char :: q).
    assert (TH : trim_suffix_of (default_port (B "https")) n = n).
    { pose proof (trim_host (mkPlain true n None [] [])) as P0. unfold host_of, scheme_of, drop_default in P0. cbn [pl_name pl_port pl_tls] in P0. rewrite !app_nil_r in P0. apply P0. unfold plain_ok. cbn [pl_name pl_port pl_path nonempty negb orb forallb]. rewrite NE, HN. reflexivity. }
    unfold url_string. cbn [hu_scheme hu_opaque hu_host hu_omit hu_path hu_rawpath hu_force hu_query hu_frag hu_rawfrag]. rewrite TH. change (nonempty (B "https")) with true. change (nonempty []) with false. rewrite NE. cbn [orb andb negb].
    assert (TS : exists t', t = "/"%char :: t') by (cbn [url_unescape] in U; change (ceqb "/"%char "%"%char) with false in U; cbn iota in U; cbn [is_mode_host is_mode_query andb] in U; destruct (url_unescape MPath q) as [t'|]; [|discriminate U]; cbn [option_map] in U; injection U as <-; eauto).
    assert (EP : exists e, escaped_text MPath t raw = "/"%char :: e).
    { destruct TS as [t' ->]. unfold escaped_text. assert (UE : exists e, url_escape MPath ("/"%char :: t') = "/"%char :: e) by (unfold url_escape; cbn [flat_map]; change (escape_char MPath "/"%char) with ["/"%char]; cbn [app]; eauto). change (seqb ("/"%char :: t') (B "*")) with false. cbn [andb]. unfold raw. destruct (seqb _ _); [exact UE|]. destruct (valid_encoded _ _ && _); [eauto|exact UE]. }
    destruct EP as [e EP]. repeat match goal with |- context [escaped_text MPath t ?r] => lazymatch r with raw => fail | _ => change r with raw end end. rewrite EP. change (nonempty ("/"%char :: e)) with true. change (has_prefix ("/"%char :: e) (B "/")) with true. cbn [negb andb].
    rewrite (escape_plain MHost n) by (eapply forallb_impl; [|exact HN]; apply char_impl; vm_compute; reflexivity). cbn [B list_ascii_of_string app nonempty negb andb]. rewrite !app_nil_r. reflexivity. }
  rewrite F. reflexivity.
Qed.
(** A path with escapes in it, such as "%2F" or "%20", stays letter for letter, if the escapes can be read. *)
Theorem C113_escapes_kept n q t : n <> [] -> forallb name_char n = true -> Forall (fun c => path_char c = true \/ In c (B "!$&'()*+,;=:@[]%")) q -> url_unescape MPath q = Some t ->
  normalize_http (B "https://" ++ n ++ "/"%char :: q) = (trim_suffix_of (B "/") (B "https://" ++ n ++ "/"%char :: q), true).
Proof.
  intros NN HN F U. assert (NE : nonempty n = true) by (destruct n; [congruence|reflexivity]).
  assert (OK : forallb (fun c => path_char c || one_of "!$&'()*+,;=:@[]%" c) q = true).
  { rewrite forallb_forall. rewrite Forall_forall in F. intros x X. destruct (F x X) as [G|G]; [rewrite G; reflexivity|]. apply orb_true_iff. right. unfold one_of. apply existsb_exists. exists x. split; [exact G|apply Ascii.eqb_refl]. }
  assert (LQ : forallb loose_char q = true) by (eapply forallb_impl; [|exact OK]; apply char_impl; vm_compute; reflexivity).
  assert (LL : last_is " "%char q = false).
  { apply last_is_without. apply (without_chars (fun c => path_char c || one_of "!$&'()*+,;=:@[]%" c)); [reflexivity|exact OK]. }
  assert (UP : url_unescape MPath ("/"%char :: q) = Some ("/"%char :: t)) by (cbn [url_unescape]; change (ceqb "/"%char "%"%char) with false; cbn iota; cbn [is_mode_host is_mode_query andb]; rewrite U; reflexivity).
  rewrite (loose_normalize n q _ NE HN LQ LL UP).
  assert (E : escaped_text MPath ("/"%char :: t) (if seqb (url_escape MPath ("/"%char :: t)) ("/"%char :: q) then [] else "/"%char :: q) = "/"%char :: q); [|rewrite E; reflexivity].
  destruct (seqb_spec (url_escape MPath ("/"%char :: t)) ("/"%char :: q)) as [S|S]; unfold escaped_text.
  - change (seqb ("/"%char :: t) (B "*")) with false. cbn iota. exact S.
  - assert (VE : valid_encoded MPath ("/"%char :: q) = true). { unfold valid_encoded. cbn [forallb]. apply andb_true_iff. split; [reflexivity|]. eapply forallb_impl; [|exact OK]. apply char_impl. vm_compute. reflexivity. }
    rewrite VE, UP, seqb_refl. reflexivity.
Qed.
Example C113_escapes_example : normalize_http (B "https://x.org/a%2Fb%20c") = (B "https://x.org/a%2Fb%20c", true) /\ url_unescape MPath (B "a%2Fb%20c") = Some (B "a/b c").
Proof. vm_compute. split; reflexivity. Qed.
(** Spaces inside a path without escapes are allowed, and each comes out as "%20". *)
Definition space_out (c : ascii) : str := if Ascii.eqb c " "%char then B "%20" else [c].
Theorem C113_spaces_inside n q : n <> [] -> forallb name_char n = true -> Forall (fun c => path_char c = true \/ c = " "%char) q -> (forall r, q <> r ++ [" "%char]) ->
  normalize_http (B "https://" ++ n ++ "/"%char :: q) = (trim_suffix_of (B "/") (B "https://" ++ n ++ "/"%char :: flat_map space_out q), true).
Proof.
  intros NN HN F HL. assert (NE : nonempty n = true) by (destruct n; [congruence|reflexivity]).
  assert (OK : forallb (fun c => path_char c || ceqb c " "%char) q = true).
  { rewrite forallb_forall. rewrite Forall_forall in F. intros x X. destruct (F x X) as [G|G]; [rewrite G; reflexivity|rewrite G; reflexivity]. }
  assert (LQ : forallb loose_char q = true) by (eapply forallb_impl; [|exact OK]; apply char_impl; vm_compute; reflexivity).
  assert (LL : last_is " "%char q = false).
  { destruct q as [|y q0] using rev_ind; [reflexivity|]. rewrite last_is_app. unfold last_is. cbn [rev app]. apply ceqb_neq. intros ->. apply (HL q0). reflexivity. }
  assert (UQ : url_unescape MPath q = Some q) by (apply unescape_plain; eapply forallb_impl; [|exact OK]; apply char_impl; vm_compute; reflexivity).
  assert (UP : url_unescape MPath ("/"%char :: q) = Some ("/"%char :: q)) by (cbn [url_unescape]; change (ceqb "/"%char "%"%char) with false; cbn iota; cbn [is_mode_host is_mode_query andb]; rewrite UQ; reflexivity).
  rewrite (loose_normalize n q _ NE HN LQ LL UP).
  assert (ES : url_escape MPath q = flat_map space_out q).
  { clear -OK. induction q as [|c q IH]; [reflexivity|]. cbn [forallb] in OK. apply andb_true_iff in OK as [O1 O2]. unfold url_escape in *. cbn [flat_map]. rewrite IH by exact O2. f_equal. unfold space_out, escape_char. unfold path_char in O1. destruct (Ascii.eqb_spec c " "%char) as [->|N]; [reflexivity|].
    apply orb_true_iff in O1 as [O1|O1]; [apply negb_true_iff in O1; rewrite O1; reflexivity|apply Ascii.eqb_eq in O1; congruence]. }
  assert (EE : url_escape MPath ("/"%char :: q) = "/"%char :: flat_map space_out q) by (unfold url_escape in *; cbn [flat_map]; rewrite ES; reflexivity). rewrite EE.
  assert (E : escaped_text MPath ("/"%char :: q) (if seqb ("/"%char :: flat_map space_out q) ("/"%char :: q) then [] else "/"%char :: q) = "/"%char :: flat_map space_out q); [|rewrite E; reflexivity].
  destruct (seqb_spec ("/"%char :: flat_map space_out q) ("/"%char :: q)) as [S|S]; unfold escaped_text; change (seqb ("/"%char :: q) (B "*")) with false; cbn iota; cbn [andb]; rewrite EE.
  - reflexivity.
  - assert (VE : valid_encoded MPath ("/"%char :: q) = false); [|rewrite VE; reflexivity]. destruct (valid_encoded _ _) eqn:V; [|reflexivity]. exfalso. apply S. f_equal. unfold valid_encoded in V. cbn [forallb] in V. apply andb_true_iff in V as [_ V]. clear -V. induction q as [|c q IH]; [reflexivity|]. cbn [forallb] in V. apply andb_true_iff in V as [V1 V2]. cbn [flat_map]. rewrite (IH V2). unfold space_out. destruct (Ascii.eqb_spec c " "%char) as [->|]; [vm_compute in V1; discriminate V1|reflexivity].
Qed.
Example C113_spaces_example : normalize_http (B "https://x.org/a b") = (B "https://x.org/a%20b", true).
Proof. vm_compute. reflexivity. Qed.
(** Both at once: a path with a space and an escape loses the escape. *)
Theorem C113_escape_lost_refuted : normalize_http (B "https://x.org/a%2Fb c") = (B "https://x.org/a/b%20c", true).
Proof. vm_compute. reflexivity. Qed.

Print Assumptions C113_blanks.
Print Assumptions C113_control.
Print Assumptions C113_escapes_kept.
Print Assumptions C113_spaces_inside.
Print Assumptions C113_escape_lost_refuted.

(** ** Schemes, and what is not trimmed *)
Definition letters : str := B "abcdefghijklmnopqrstuvwxyzABCDEFGHIJKLMNOPQRSTUVWXYZ".
Lemma letters_are c : In c letters <-> is_letter c = true.
Proof.
  split.
  - intro H. assert (F : forallb is_letter letters = true) by reflexivity. rewrite forallb_forall in F. exact (F c H).
  - intro H. assert (V : forall c, is_letter c = true -> existsb (ceqb c) letters = true). { intros [[] [] [] [] [] [] [] []]; vm_compute; congruence. }
    specialize (V c H). apply existsb_exists in V as (x & I1 & E). apply Ascii.eqb_eq in E. congruence.
Qed.
(** A scheme: a letter, then letters, digits, "+", "-" and ".". What follows its colon is kept if it does not start with a slash. *)
Theorem C113_scheme_read x r rest : In x letters -> Forall (fun c => In c letters \/ In c (B "0123456789+-.")) r -> hd_error rest <> Some "/"%char -> ~ In "#"%char rest -> ~ In "?"%char rest -> Forall (fun c => 32 <= val c < 127)%N rest ->
  url_parse (x :: r ++ ":"%char :: rest) = Some (mkHUrl (map lower (x :: r)) rest [] false [] [] false [] [] []).
Proof.
  intros X R S1 NH NQ C.
  assert (OK : forall c, In c letters \/ In c (B "0123456789+-.") -> c <> "#"%char /\ c <> "?"%char /\ is_ctl c = false /\ (is_letter c = true \/ is_letter c = false /\ is_digit c || one_of "+-." c = true)).
  { intros c H. assert (V : forallb (fun c => negb (ceqb c "#"%char) && negb (ceqb c "?"%char) && negb (is_ctl c) && (is_letter c || is_digit c || one_of "+-." c)) (letters ++ B "0123456789+-.") = true) by (vm_compute; reflexivity).
    rewrite forallb_forall in V. specialize (V c ltac:(apply in_or_app; exact H)). rewrite !andb_true_iff in V. destruct V as [[[V1 V2] V3] V4]. apply negb_true_iff in V1, V2, V3.
    split; [intros ->; discriminate|]. split; [intros ->; discriminate|]. split; [exact V3|]. destruct (is_letter c); [left; reflexivity|right; split; [reflexivity|exact V4]]. }
  set (u := x :: r ++ ":"%char :: rest).
  assert (CUT : forall k, k <> ":"%char -> (forall c, In c letters \/ In c (B "0123456789+-.") -> c <> k) -> ~ In k rest -> cut_sep k u = None /\ cut_sep k rest = None).
  { intros k NC O NK. assert (Z : forall s, ~ In k s -> cut_sep k s = None). { induction s as [|c s IH]; intro H; [reflexivity|]. cbn [cut_sep]. destruct (ceqb c k) eqn:E; [apply Ascii.eqb_eq in E; destruct H; left; exact E|]. rewrite IH; [reflexivity|]. intro I. apply H. right. exact I. }
    split; [|apply Z, NK]. apply Z. unfold u. intros [H|H]; [exact (O x (or_introl X) H)|]. apply in_app_or in H as [H|[H|H]]; [|congruence|exact (NK H)]. rewrite Forall_forall in R. exact (O k (R k H) eq_refl). }
  destruct (CUT "#"%char ltac:(discriminate) ltac:(intros c H; apply OK, H) NH) as [CH _]. destruct (CUT "?"%char ltac:(discriminate) ltac:(intros c H; apply OK, H) NQ) as [_ CQ].
  assert (CT : existsb is_ctl u = false).
  { destruct (existsb is_ctl u) eqn:E; [|reflexivity]. apply existsb_exists in E as (c & I1 & E). exfalso. destruct I1 as [<-|I1]; [destruct (OK x (or_introl X)) as (_ & _ & Q & _); congruence|]. apply in_app_or in I1 as [I1|[<-|I1]].
    - rewrite Forall_forall in R. destruct (OK c (R c I1)) as (_ & _ & Q & _). congruence.
    - discriminate.
    - rewrite Forall_forall in C. specialize (C c I1). unfold is_ctl in E. destruct (N.ltb_spec (val c) 32); [lia|]. destruct (N.eqb_spec (val c) 127); [lia|discriminate]. }
  assert (GS : get_scheme u = Some (x :: r, rest)).
  { unfold get_scheme, u. cbn [scheme_loop]. rewrite (proj1 (letters_are x) X). cbn [app].
    assert (L : forall acc, scheme_loop false acc (r ++ ":"%char :: rest) = Some (Some (acc ++ r, rest))).
    { revert R. clear -OK. induction r as [|c r IH]; intros R acc; [cbn; rewrite app_nil_r; reflexivity|]. inversion R as [|? ? R1 R2]; subst. destruct (OK c R1) as (_ & _ & _ & Q). cbn [app scheme_loop].
      destruct Q as [Q|[Q1 Q2]]; [rewrite Q|rewrite Q1, Q2]; rewrite (IH R2), <- app_assoc; reflexivity. }
    rewrite L. reflexivity. }
  unfold url_parse, cut_or. rewrite CH. unfold parse_before_fragment. rewrite CT, GS. assert (ST : seqb u (B "*") = false) by (destruct (seqb_spec u (B "*")) as [E|E]; [unfold u in E; destruct r; discriminate|reflexivity]). rewrite ST.
  assert (FQ : filter (ceqb "?"%char) rest = []). { destruct (filter (ceqb "?"%char) rest) as [|c l] eqn:E; [reflexivity|]. exfalso. apply NQ. assert (I : In c (filter (ceqb "?"%char) rest)) by (rewrite E; left; reflexivity). apply filter_In in I as [I1 I2]. apply Ascii.eqb_eq in I2. congruence. }
  rewrite FQ. cbn [length Nat.eqb]. rewrite andb_false_r. unfold cut_or. rewrite CQ. cbv zeta.
  assert (PS : has_prefix rest (B "/") = false). { destruct (has_prefix rest (B "/")) eqn:E; [|reflexivity]. apply has_prefix_spec in E as (t & ->). cbn in S1. congruence. }
  rewrite PS. cbn [map negb andb]. reflexivity.
Qed.
Example C113_scheme_read_example : url_parse (B "Web+z.A9-:me@x.org/a") = Some (mkHUrl (B "web+z.a9-") (B "me@x.org/a") [] false [] [] false [] [] []).
Proof. vm_compute. reflexivity. Qed.
(** A control character that is not one of the six blanks stays, and makes it no url. *)
Theorem C113_not_blank x t : ((val x < 32 \/ val x = 127) /\ ~ blank x)%N -> snd (normalize_http (x :: t)) = false /\ exists t', fst (normalize_http (x :: t)) = B "https://" ++ x :: t'.
Proof.
  intros [V NB]. assert (SP : is_space x = false).
  { unfold is_space. unfold blank in NB. cbn [In] in NB. destruct (N.leb_spec 9 (val x)), (N.leb_spec (val x) 13), (N.eqb_spec (val x) 32); try reflexivity; exfalso; lia. }
  assert (T : exists t', trim_space (x :: t) = x :: t').
  { unfold trim_space. cbn [trim_left]. rewrite SP. cbn [rev]. assert (L : forall l, exists l', trim_left (l ++ [x]) = l' ++ [x]). { induction l as [|c l IH]; [exists []; cbn; rewrite SP; reflexivity|]. cbn [app trim_left]. destruct (is_space c); [exact IH|exists (c :: l); reflexivity]. }
    destruct (L (rev t)) as (l' & ->). rewrite rev_app_distr. exists (rev l'). reflexivity. }
  destruct T as (t' & T). unfold normalize_http. rewrite T. assert (HP : has_prefix (x :: t') (B "http") = false).
  { destruct (has_prefix (x :: t') (B "http")) eqn:E; [|reflexivity]. apply has_prefix_spec in E as (q & E). injection E as -> _. vm_compute in V. destruct V as [V|V]; discriminate. }
  rewrite HP. rewrite (C113_control (B "https://") x t' V); [|intro I; cbn in I; repeat destruct I as [I|I]; try discriminate; contradiction]. split; [reflexivity|eexists; reflexivity].
Qed.
Example C113_not_blank_example : ((val (ascii_of_N 14) < 32 \/ val (ascii_of_N 14) = 127) /\ ~ blank (ascii_of_N 14))%N.
Proof. split; [left; reflexivity|]. unfold blank. vm_compute. intuition discriminate. Qed.

Print Assumptions C113_scheme_read.
Print Assumptions C113_not_blank.
