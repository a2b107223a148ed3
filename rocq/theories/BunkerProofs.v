(** Proofs about BunkerModel.v: how bunker urls are read. *)
From Verif Require Import Base EventModel CryptoModel Bech32Model Nip19Model IdentModel HttpUrlModel HttpUrlProofs SignerModel BunkerModel.
Import ListNotations.
Local Open Scope bool_scope.

(** Spec: the texts that stand for a value in a query, written from net/url's description: a byte itself, a plus for a space, or two digits after a percent sign. *)
Definition lit_char (x : ascii) : bool := negb (is_ctl x) && negb (one_of "%+&;#" x).
Inductive spells : str -> str -> Prop :=
| sp_nil : spells [] []
| sp_lit x r v : lit_char x = true -> spells r v -> spells (x :: r) (x :: v)
| sp_plus r v : spells r v -> spells ("+"%char :: r) (" "%char :: v)
| sp_hex a b x y r v : hex_val a = Some x -> hex_val b = Some y -> spells r v -> spells ("%"%char :: a :: b :: r) (byte_of (16 * x + y) :: v).
Lemma hex_char a x : hex_val a = Some x -> negb (is_ctl a) && negb (one_of "%+&;#=" a) = true.
Proof.
  intro H. assert (G : (match hex_val a with Some _ => true | None => false end) = true) by (rewrite H; reflexivity). revert G. apply (char_impl (fun a => match hex_val a with Some _ => true | None => false end) (fun a => negb (is_ctl a) && negb (one_of "%+&;#=" a))). vm_compute. reflexivity.
Qed.
Lemma spells_unescape r v : spells r v -> url_unescape MQuery r = Some v.
Proof.
  induction 1 as [|x r v L _ IH|r v _ IH|a b x y r v A C _ IH]; [reflexivity|..]; cbn [url_unescape].
  - assert (G : (ceqb x "%"%char || ceqb x "+"%char) = false). { destruct (ceqb x "%"%char || ceqb x "+"%char) eqn:E; [|reflexivity]. exfalso. apply orb_prop in E as [E|E]; apply ceqb_eq in E; subst x; discriminate L. }
    apply orb_false_elim in G as [G1 G2]. rewrite G1, IH. change (is_mode_host MQuery) with false. change (is_mode_query MQuery) with true. cbn [andb option_map]. rewrite G2. reflexivity.
  - rewrite IH. reflexivity.
  - change (ceqb "%"%char "%"%char) with true. cbv iota. rewrite A, C, IH. reflexivity.
Qed.
Definition raw_char (x : ascii) : bool := negb (is_ctl x) && negb (one_of "&;#" x).
Lemma lit_raw x : lit_char x = true -> raw_char x = true. Proof. apply (char_impl lit_char raw_char). vm_compute. reflexivity. Qed.
Lemma hex_raw a x : hex_val a = Some x -> raw_char a = true.
Proof. intro H. apply hex_char in H. revert H. apply (char_impl (fun a => negb (is_ctl a) && negb (one_of "%+&;#=" a)) raw_char). vm_compute. reflexivity. Qed.
Lemma spells_raw r v : spells r v -> forallb raw_char r = true.
Proof.
  induction 1 as [|x r v L _ IH|r v _ IH|a b x y r v A C _ IH]; [reflexivity|..]; cbn [forallb]; rewrite IH, ?andb_true_r.
  - apply lit_raw, L.
  - reflexivity.
  - rewrite (hex_raw _ _ A), (hex_raw _ _ C). reflexivity.
Qed.

(** A parameter as it is written, and what it stands for. *)
Definition param (raw : str * str) (p : str * str) : Prop := spells (fst raw) (fst p) /\ spells (snd raw) (snd p) /\ without "="%char (fst raw) = true.
Definition raw_param (raw : str * str) : str := fst raw ++ "="%char :: snd raw.
Definition raw_query (raws : list (str * str)) : str := join_amp (map raw_param raws).
Lemma raw_param_chars raw p : param raw p -> forallb raw_char (raw_param raw) = true.
Proof. intros (A & C & _). unfold raw_param. rewrite forallb_app. cbn [forallb]. rewrite (spells_raw _ _ A), (spells_raw _ _ C). reflexivity. Qed.
Lemma raw_pair_parse raw p : param raw p -> parse_pair (raw_param raw) = Some p.
Proof.
  intros P. pose proof (raw_param_chars _ _ P) as W. destruct P as (A & C & NE). unfold parse_pair.
  assert (S1 : existsb (ceqb ";"%char) (raw_param raw) = false). { destruct (existsb _ _) eqn:E; [|reflexivity]. apply existsb_exists in E as (x & Hx & E). apply ceqb_eq in E. subst x. rewrite forallb_forall in W. specialize (W _ Hx). discriminate W. }
  rewrite S1. destruct (raw_param raw) eqn:E; [unfold raw_param in E; destruct (fst raw); discriminate E|]. rewrite <- E. unfold raw_param, cut_or. rewrite cut_sep_app by exact NE. rewrite (spells_unescape _ _ A), (spells_unescape _ _ C). destruct p; reflexivity.
Qed.
Lemma parse_query_raw raws pairs : Forall2 param raws pairs -> parse_query (raw_query raws) = pairs.
Proof.
  intro H. unfold parse_query, raw_query. destruct raws as [|r raws]; [inversion H; reflexivity|].
  rewrite split_join; [|discriminate|].
  - generalize dependent (r :: raws). clear r raws. induction 1 as [|a p l ps P _ IH]; [reflexivity|]. cbn [map flat_map]. rewrite (raw_pair_parse _ _ P). cbn [app]. f_equal. exact IH.
  - apply forallb_forall. intros x Hx. apply in_map_iff in Hx as (y & <- & Hy).
    assert (E : exists q, param y q). { clear - H Hy. induction H as [|a b la lb P F IH]; [destruct Hy|]. destruct Hy as [<-|Hy]; [exists b; exact P|exact (IH Hy)]. }
    destruct E as [q P]. apply (without_chars raw_char); [reflexivity|]. apply (raw_param_chars _ _ P).
Qed.
Lemma raw_query_chars raws pairs : Forall2 param raws pairs -> forallb (fun x => negb (is_ctl x) && negb (ceqb x "#"%char)) (raw_query raws) = true.
Proof.
  intro H. unfold raw_query. apply join_all; [reflexivity|]. apply forallb_forall. intros x Hx. apply in_map_iff in Hx as (y & <- & Hy).
  assert (E : exists q, param y q). { clear - H Hy. induction H as [|a b la lb P F IH]; [destruct Hy|]. destruct Hy as [<-|Hy]; [exists b; exact P|exact (IH Hy)]. }
  destruct E as [q P]. eapply forallb_impl; [|apply (raw_param_chars _ _ P)]. apply char_impl. vm_compute. reflexivity.
Qed.

(** The values of a name, in order. *)
Definition named (k : str) (pairs : list (str * str)) : list str := map snd (filter (fun p => seqb (fst p) k) pairs).
Lemma values_add k k' v m : values_at k (add_value k' v m) = if seqb k k' then values_at k m ++ [v] else values_at k m.
Proof.
  induction m as [|[a vs] m IH]; cbn [add_value values_at].
  - destruct (seqb k k'); reflexivity.
  - destruct (seqb k' a) eqn:E; cbn [values_at].
    + apply seqb_eq in E. subst a. destruct (seqb k k'); reflexivity.
    + rewrite IH. destruct (seqb k a) eqn:Ea; [|reflexivity]. destruct (seqb k k') eqn:Ek; [|reflexivity]. exfalso. apply seqb_eq in Ea, Ek. subst. rewrite seqb_refl in E. discriminate.
Qed.
Lemma seqb_sym' a b : seqb a b = seqb b a.
Proof. destruct (seqb a b) eqn:E; symmetry; [apply seqb_eq in E; subst; apply seqb_refl|]. destruct (seqb b a) eqn:F; [|reflexivity]. apply seqb_eq in F. subst. rewrite seqb_refl in E. discriminate. Qed.
Lemma values_group k l : forall m, values_at k (fold_left (fun m p => add_value (fst p) (snd p) m) l m) = values_at k m ++ named k l.
Proof.
  induction l as [|p l IH]; intro m; cbn [fold_left]; [unfold named; cbn; rewrite app_nil_r; reflexivity|]. rewrite IH, values_add. unfold named. cbn [filter]. rewrite (seqb_sym' (fst p) k).
  destruct (seqb k (fst p)); [cbn [map]; rewrite <- app_assoc; reflexivity|reflexivity].
Qed.
Lemma values_named k q : values_at k (query_values q) = named k (parse_query q).
Proof. unfold query_values. rewrite values_group. reflexivity. Qed.

(** A url as it is written: the scheme in any case, the host, an optional slash, the parameters. *)
Definition scheme_spelling (sc : str) (word : string) : Prop := forallb is_letter sc = true /\ map lower sc = B word.
Definition bunker_text (sc host : str) (slash : bool) (raws : list (str * str)) : str :=
  sc ++ B "://" ++ host ++ (if slash then B "/" else []) ++ match raws with [] => [] | _ => "?"%char :: raw_query raws end.
Definition host_char' (x : ascii) : bool := is_alnum x || one_of "-." x.
Lemma scheme_letters sc : forallb is_letter sc = true -> forall first acc r, (first = true -> sc <> []) -> scheme_loop first acc (sc ++ ":"%char :: r) = Some (Some (acc ++ sc, r)).
Proof.
  induction sc as [|x sc IH]; intros H first acc r NE.
  - cbn [app scheme_loop]. change (is_letter ":"%char) with false. change (is_digit ":"%char || one_of "+-." ":"%char) with false. change (ceqb ":"%char ":"%char) with true. cbv iota. destruct first; [destruct (NE eq_refl eq_refl)|]. rewrite app_nil_r. reflexivity.
  - cbn [forallb] in H. apply andb_prop in H as [H1 H2]. cbn [app scheme_loop]. rewrite H1. rewrite IH; [|exact H2|discriminate]. rewrite <- app_assoc. reflexivity.
Qed.
Lemma host_parse' h : forallb host_char' h = true -> parse_host h = Some h.
Proof.
  intro H. unfold parse_host.
  assert (E : existsb (one_of "@[") h = false). { destruct (existsb _ _) eqn:E; [|reflexivity]. apply existsb_exists in E as (x & Hx & E). rewrite forallb_forall in H. specialize (H x Hx). exfalso. assert (G : negb (one_of "@[" x) = true) by (revert H; apply (char_impl host_char' (fun x => negb (one_of "@[" x))); vm_compute; reflexivity). rewrite E in G. discriminate. }
  rewrite E. rewrite after_last_without by (apply (without_chars host_char'); [reflexivity|exact H]). apply unescape_plain. eapply forallb_impl; [|exact H]. apply char_impl. vm_compute. reflexivity.
Qed.
Lemma url_parse_bunker sc host slash raws pairs w : scheme_spelling sc w -> B w <> [] -> forallb host_char' host = true -> Forall2 param raws pairs ->
  url_parse (bunker_text sc host slash raws) = Some (mkHUrl (B w) [] host false (if slash then B "/" else []) [] false (raw_query raws) [] []).
Proof.
  intros [SL SW] NE HH HP. set (q := match raws with [] => [] | _ => "?"%char :: raw_query raws end). set (sl := if slash then B "/" else []).
  assert (WC : forallb (fun x => negb (is_ctl x) && negb (ceqb x "#"%char)) (bunker_text sc host slash raws) = true).
  { unfold bunker_text. rewrite !forallb_app, !andb_true_iff. repeat split.
    - eapply forallb_impl; [|exact SL]. apply char_impl. vm_compute. reflexivity.
    - eapply forallb_impl; [|exact HH]. apply char_impl. vm_compute. reflexivity.
    - destruct slash; reflexivity.
    - destruct raws as [|r raws']; [reflexivity|]. cbn [forallb]. rewrite andb_true_iff. split; [reflexivity|]. apply (raw_query_chars _ _ HP). }
  unfold url_parse, cut_or. rewrite cut_sep_without by (apply (without_chars (fun x => negb (is_ctl x) && negb (ceqb x "#"%char))); [reflexivity|exact WC]).
  assert (PB : parse_before_fragment (bunker_text sc host slash raws) = Some (mkHUrl (B w) [] host false sl [] false (raw_query raws) [] [])); [|rewrite PB; reflexivity].
  unfold parse_before_fragment.
  assert (NC : existsb is_ctl (bunker_text sc host slash raws) = false).
  { destruct (existsb _ _) eqn:E; [|reflexivity]. apply existsb_exists in E as (x & Hx & E). rewrite forallb_forall in WC. specialize (WC x Hx). rewrite E in WC. discriminate WC. }
  rewrite NC.
  assert (SN : sc <> []) by (intros ->; cbn in SW; congruence).
  assert (ST : seqb (bunker_text sc host slash raws) (B "*") = false).
  { destruct (seqb _ _) eqn:E; [|reflexivity]. apply seqb_eq in E. unfold bunker_text in E. destruct sc as [|x sc']; [congruence|]. cbn [app] in E. injection E as E1 E2. destruct sc'; discriminate E2. }
  rewrite ST. unfold bunker_text at 1. change (B "://") with (":"%char :: B "//"). cbn [app]. unfold get_scheme. rewrite (scheme_letters sc SL true [] _ (fun _ => SN)). cbn [app]. rewrite SW.
  fold sl q. set (hp := "/"%char :: "/"%char :: host ++ sl).
  assert (E : B "//" ++ host ++ sl ++ q = hp ++ q) by (unfold hp; cbn [app]; rewrite <- app_assoc; reflexivity). change (B "//" ++ host ++ (if slash then B "/" else []) ++ q) with (B "//" ++ host ++ sl ++ q). rewrite E.
  assert (HQ : without "?"%char hp = true).
  { unfold hp. change ("/"%char :: "/"%char :: host ++ sl) with (B "//" ++ host ++ sl). rewrite !without_app, !andb_true_iff. split; [reflexivity|]. split; [apply (without_chars host_char'); [reflexivity|exact HH]|]. unfold sl. destruct slash; reflexivity. }
  assert (FQ : last_is "?"%char (hp ++ q) && (length (filter (ceqb "?"%char) (hp ++ q)) =? 1) = false).
  { destruct (last_is "?"%char (hp ++ q)) eqn:L; [|reflexivity]. cbn [andb]. apply Nat.eqb_neq. intro C. unfold q in *. destruct raws as [|r raws']; [rewrite app_nil_r, last_is_without in L by exact HQ; discriminate|].
    assert (J : exists x t, raw_query (r :: raws') = x :: t). { unfold raw_query. cbn [map]. destruct r as [n v]. unfold raw_param at 1. cbn [fst snd]. destruct n as [|y n]; destruct (map raw_param raws') as [|z l]; eexists; eexists; reflexivity. }
    destruct J as (x & t & J). rewrite last_is_app, J in L. change ("?"%char :: x :: t) with (["?"%char] ++ x :: t) in L. rewrite last_is_app in L.
    assert (CN : forall s, last_is "?"%char s = true -> 1 <= length (filter (ceqb "?"%char) s)).
    { intros s Hs. unfold last_is in Hs. destruct (rev s) as [|y s'] eqn:R; [discriminate|]. apply ceqb_eq in Hs. subst y. assert (I1 : In "?"%char s) by (apply in_rev; rewrite R; left; reflexivity). assert (I2 : In "?"%char (filter (ceqb "?"%char) s)) by (apply filter_In; split; [exact I1|reflexivity]). destruct (filter _ s); [destruct I2|cbn; lia]. }
    apply CN in L. rewrite filter_app, app_length, J in C. change (filter (ceqb "?"%char) ("?"%char :: x :: t)) with ("?"%char :: filter (ceqb "?"%char) (x :: t)) in C. cbn [length] in C. lia. }
  rewrite FQ.
  assert (CU : cut_or "?"%char (hp ++ q) = (hp, raw_query raws)).
  { unfold cut_or, q. destruct raws as [|r raws']; [rewrite app_nil_r, cut_sep_without by exact HQ; reflexivity|]. rewrite cut_sep_app by exact HQ. reflexivity. }
  rewrite CU. change (has_prefix hp (B "/")) with true. cbn [negb andb].
  change (has_prefix hp (B "//")) with true. rewrite andb_true_r.
  assert (SC : match B w with [] => false | _ => true end = true) by (destruct (B w); [congruence|reflexivity]). rewrite SC. cbn [orb].
  change (skipn 2 hp) with (host ++ sl).
  assert (HS : without "/"%char host = true) by (apply (without_chars host_char'); [reflexivity|exact HH]).
  assert (AU : match index (host ++ sl) (B "/") with Some i => (firstn i (host ++ sl), skipn i (host ++ sl)) | None => (host ++ sl, []) end = (host, sl)).
  { unfold sl. destruct slash.
    - change (host ++ B "/") with (host ++ "/"%char :: []). rewrite index_slash by exact HS. rewrite firstn_app, Nat.sub_diag, firstn_all, skipn_app, Nat.sub_diag, skipn_all. cbn. rewrite app_nil_r. reflexivity.
    - rewrite app_nil_r, index_slash_none by exact HS. reflexivity. }
  rewrite AU, (host_parse' _ HH). unfold sl. destruct slash; reflexivity.
Qed.
Lemma lower_hex_host k : forallb is_lower_hex_char k = true -> forallb host_char' k = true.
Proof. apply forallb_impl. apply char_impl. vm_compute. reflexivity. Qed.

(** "relay=" in a query written by url.Values: some name ends in "relay". *)
Lemma contains_app_l a s x : contains s x = true -> contains (a ++ s) x = true.
Proof. intro H. induction a as [|y a IH]; [exact H|]. cbn [app contains]. rewrite IH. apply orb_true_r. Qed.
Lemma contains_spec s x : contains s x = true <-> exists a b, s = a ++ x ++ b.
Proof.
  split.
  - induction s as [|y s IH]; cbn [contains]; intro H.
    + rewrite orb_false_r in H. apply has_prefix_spec in H as [t H]. exists [], t. exact H.
    + apply orb_prop in H as [H|H]; [apply has_prefix_spec in H as [t H]; exists [], t; exact H|]. destruct (IH H) as (a & b & ->). exists (y :: a), b. reflexivity.
  - intros (a & b & ->). apply contains_app_l. destruct (x ++ b) eqn:E; cbn [contains]; rewrite <- ?E.
    + apply app_eq_nil in E as [-> ->]. reflexivity.
    + rewrite (proj2 (has_prefix_spec _ _)) by (exists b; reflexivity). reflexivity.
Qed.
Lemma contains_join s t x : ~ In "&"%char x -> contains (s ++ "&"%char :: t) x = contains s x || contains t x || seqb x [].
Proof.
  intro N. destruct (seqb x []) eqn:EX.
  { apply seqb_eq in EX. subst x. rewrite !orb_true_r. apply contains_spec. exists [], (s ++ "&"%char :: t). reflexivity. }
  rewrite orb_false_r. apply eq_true_iff_eq. rewrite orb_true_iff. split.
  - intro H. apply contains_spec in H as (a & b & H). assert (G : (exists l, s = a ++ x ++ l) \/ (exists l, t = l ++ x ++ b)).
    { apply app_eq_app in H as (l & [[H1 H2]|[H1 H2]]).
      - (* a is a prefix of s *)
        subst s. symmetry in H2. apply app_eq_app in H2 as (m & [[H3 H4]|[H3 H4]]).
        + left. exists m. rewrite H3. reflexivity.
        + destruct m as [|y m]; [left; exists []; rewrite ?app_nil_r in *; subst; rewrite ?app_nil_r; reflexivity|]. cbn [app] in H4. injection H4 as <- H4. exfalso. apply N. rewrite H3. apply in_or_app. right. left. reflexivity.
      - destruct l as [|y l]; [cbn [app] in H2; destruct x as [|z x]; [discriminate EX|]; cbn [app] in H2; injection H2 as <- _; exfalso; apply N; left; reflexivity|]. cbn [app] in H2. injection H2 as <- H2. right. exists l. exact H2. }
    destruct G as [[l ->]|[l ->]]; [left|right]; apply contains_spec; eauto.
  - intros [H|H]; apply contains_spec in H as (a & b & ->); apply contains_spec; [exists a, (b ++ "&"%char :: t)|exists (s ++ "&"%char :: a), b]; rewrite <- ?app_assoc; cbn [app]; rewrite <- ?app_assoc; reflexivity.
Qed.
Lemma contains_named s t x : without "="%char s = true -> without "="%char t = true -> contains (s ++ "="%char :: t) (x ++ B "=") = has_suffix s x || false.
Proof.
  intros HS HT. rewrite orb_false_r. apply eq_true_iff_eq. rewrite has_suffix_spec, contains_spec. split.
  - intros (a & b & H). rewrite <- app_assoc in H. change (B "=" ++ b) with ("="%char :: b) in H. rewrite app_assoc in H.
    assert (W : without "="%char (a ++ x) = true).
    { destruct (without "="%char (a ++ x)) eqn:W; [reflexivity|]. exfalso.
      assert (F : forall l : str, without "="%char l = false -> exists l1 l2, l = l1 ++ "="%char :: l2 /\ without "="%char l1 = true).
      { clear. induction l as [|y l IH]; intro H; [discriminate|]. unfold without in H. cbn [forallb] in H. apply andb_false_iff in H. destruct (negb (ceqb y "="%char)) eqn:E.
        - destruct H as [H|H]; [discriminate|]. destruct (IH H) as (l1 & l2 & -> & W). exists (y :: l1), l2. split; [reflexivity|]. unfold without. cbn [forallb]. rewrite E. exact W.
        - apply negb_false_iff in E. apply ceqb_eq in E. subst y. exists [], l. split; reflexivity. }
      destruct (F _ W) as (l1 & l2 & E & W1). rewrite E, <- app_assoc in H. cbn [app] in H. apply (f_equal (cut_sep "="%char)) in H. rewrite !cut_sep_app in H by assumption. assert (E2 : t = l2 ++ "="%char :: b) by congruence. subst t. rewrite without_app in HT. apply andb_prop in HT as [_ HT]. discriminate HT. }
    apply (f_equal (cut_sep "="%char)) in H. rewrite !cut_sep_app in H by assumption. exists a. congruence.
  - intros (a & ->). exists a, t. rewrite <- !app_assoc. reflexivity.
Qed.
Definition lower_letter (x : ascii) : bool := ((97 <=? val x) && (val x <=? 122))%N.
Lemma escape_suffix suf : forallb lower_letter suf = true -> forall k a, url_escape MQuery k = a ++ suf -> exists k', k = k' ++ suf.
Proof.
  induction suf as [|y suf IH] using rev_ind; intros H k a E; [exists k; rewrite app_nil_r; reflexivity|]. rewrite forallb_app in H. apply andb_prop in H as [H1 H2]. cbn [forallb] in H2. rewrite andb_true_r in H2.
  destruct k as [|x k _] using rev_ind; [destruct a, suf; discriminate E|]. unfold url_escape in E. rewrite flat_map_app in E. cbn [flat_map] in E. rewrite app_nil_r, app_assoc in E. fold (url_escape MQuery k) in E.
  assert (X : escape_char MQuery x = [x] \/ escape_char MQuery x = B "+" \/ escape_char MQuery x = percent x). { unfold escape_char. destruct (should_escape MQuery x); [destruct (is_mode_query MQuery && _)|]; auto. }
  destruct X as [X|[X|X]]; rewrite X in E.
  - apply app_inj_tail in E as [E ->]. destruct (IH H1 k a E) as [k' ->]. exists k'. rewrite app_assoc. reflexivity.
  - exfalso. change (B "+") with ["+"%char] in E. apply app_inj_tail in E as [_ <-]. discriminate H2.
  - exfalso. unfold percent in E. change (["%"%char; upper_digit (val x / 16); upper_digit (val x mod 16)]) with (["%"%char; upper_digit (val x / 16)] ++ [upper_digit (val x mod 16)]) in E. rewrite app_assoc in E. apply app_inj_tail in E as [_ E].
    assert (G : forall x, negb (lower_letter (upper_digit (val x mod 16))) = true) by (intro z; apply (char_impl (fun _ => true) (fun z => negb (lower_letter (upper_digit (val z mod 16))))); [vm_compute|]; reflexivity).
    specialize (G x). rewrite E, H2 in G. discriminate G.
Qed.
Lemma escape_suffix_iff suf k : forallb lower_letter suf = true -> forallb query_char suf = true -> has_suffix (url_escape MQuery k) suf = has_suffix k suf.
Proof.
  intros H Q. apply eq_true_iff_eq. rewrite !has_suffix_spec. split; intros [a E]; [exact (escape_suffix suf H k a E)|]. subst k. exists (url_escape MQuery a). unfold url_escape. rewrite flat_map_app. f_equal. apply escape_plain. exact Q.
Qed.
Lemma contains_query l : contains (join_amp (map enc_pair l)) (B "relay=") = existsb (fun p => has_suffix (fst p) (B "relay")) l.
Proof.
  assert (P1 : forall p, contains (enc_pair p) (B "relay=") = has_suffix (fst p) (B "relay")).
  { intro p. unfold enc_pair. change (B "relay=") with (B "relay" ++ B "="). rewrite contains_named by (apply enc_without; reflexivity). rewrite orb_false_r. apply escape_suffix_iff; reflexivity. }
  induction l as [|p [|p' l] IH]; [reflexivity|cbn [map join_amp existsb]; rewrite P1, orb_false_r; reflexivity|].
  change (join_amp (map enc_pair (p :: p' :: l))) with (enc_pair p ++ "&"%char :: join_amp (map enc_pair (p' :: l))). rewrite contains_join by (intros [H|[H|[H|[H|[H|[H|[]]]]]]]; discriminate H). rewrite IH, P1. change (seqb (B "relay=") []) with false. rewrite orb_false_r. reflexivity.
Qed.
(** What url.Values.Encode writes is one of the spellings. *)
Lemma upper_digit_val : forall n, (n < 16)%N -> hex_val (upper_digit n) = Some n.
Proof. intros n H. assert (G : forallb (fun n => match hex_val (upper_digit n) with Some m => (m =? n)%N | None => false end) (map N.of_nat (seq 0 16)) = true) by (vm_compute; reflexivity). rewrite forallb_forall in G. specialize (G n). destruct (hex_val (upper_digit n)) as [m|]; [|discriminate G; apply in_map_iff; exists (N.to_nat n); rewrite in_seq; lia]. f_equal. apply N.eqb_eq, G. apply in_map_iff. exists (N.to_nat n). rewrite in_seq. lia. Qed.
Lemma spells_escape s : spells (url_escape MQuery s) s.
Proof.
  induction s as [|x s IH]; [constructor|]. unfold url_escape. cbn [flat_map]. fold (url_escape MQuery s). unfold escape_char. destruct (should_escape MQuery x) eqn:E.
  - destruct (is_mode_query MQuery && ceqb x " "%char) eqn:P.
    + apply andb_prop in P as [_ P]. apply ceqb_eq in P. subst x. apply sp_plus, IH.
    + unfold percent. cbn [app]. assert (V : (val x < 256)%N) by apply val_lt. replace x with (byte_of (16 * (val x / 16) + val x mod 16)) at 3 by (rewrite <- N.div_mod by discriminate; apply byte_of_val).
      apply sp_hex; [apply upper_digit_val; apply N.div_lt_upper_bound; lia|apply upper_digit_val; apply N.mod_lt; discriminate|exact IH].
  - apply sp_lit; [|exact IH]. revert E. assert (G : negb (should_escape MQuery x) = true -> lit_char x = true) by (apply (char_impl (fun x => negb (should_escape MQuery x)) lit_char); vm_compute; reflexivity). intro E. apply G. rewrite E. reflexivity.
Qed.
Definition encoded (p : str * str) : str * str := (url_escape MQuery (fst p), url_escape MQuery (snd p)).
Lemma param_encoded p : param (encoded p) p.
Proof. split; [apply spells_escape|]. split; [apply spells_escape|]. apply enc_without. reflexivity. Qed.
Lemma params_encoded l : Forall2 param (map encoded l) l.
Proof. induction l as [|p l IH]; [constructor|]. cbn [map]. constructor; [apply param_encoded|exact IH]. Qed.
Lemma raw_query_encoded l : raw_query (map encoded l) = join_amp (map enc_pair l).
Proof. unfold raw_query. rewrite map_map. reflexivity. Qed.
