(** C127: addresses of relays and the deprecated readers of tags. *)
From Verif Require Import Base EventModel TagsModel TagsProofs IdentModel Bech32Model HttpUrlModel HttpUrlProofs BunkerProofs Props_Tags RelayUrlModel.
Import ListNotations.

Lemma scheme_loop_inv s : forall first acc p, scheme_loop first acc s = Some (Some p) -> exists sc, fst p = acc ++ sc /\ s = sc ++ ":"%char :: snd p.
Proof.
  induction s as [|c s IH]; intros first acc p H; [discriminate|]. cbn [scheme_loop] in H. destruct (is_letter c).
  - apply IH in H as (sc & E1 & E2). exists (c :: sc). rewrite E1, <- app_assoc. split; [reflexivity|]. cbn [app]. congruence.
  - destruct (is_digit c || one_of "+-." c).
    + destruct first; [discriminate|]. apply IH in H as (sc & E1 & E2). exists (c :: sc). rewrite E1, <- app_assoc. split; [reflexivity|]. cbn [app]. congruence.
    + destruct (ceqb c ":"%char) eqn:C; [|discriminate]. destruct first; [discriminate|]. injection H as <-. apply Ascii.eqb_eq in C as ->. exists []. rewrite app_nil_r. split; reflexivity.
Qed.
Lemma parse_scheme u h : url_parse u = Some h -> hu_scheme h <> [] -> exists sc rest, u = sc ++ ":"%char :: rest /\ map lower sc = hu_scheme h.
Proof.
  unfold url_parse. assert (CU : exists tail, u = fst (cut_or "#"%char u) ++ tail).
  { unfold cut_or. clear. assert (G : forall p, cut_sep "#"%char u = Some p -> exists t, u = fst p ++ t).
    { induction u as [|c u IH]; intros p H; cbn [cut_sep] in H; [discriminate|]. destruct (ceqb c "#"%char) eqn:C.
      - injection H as <-. exists (c :: u). reflexivity.
      - destruct (cut_sep "#"%char u) as [[a b]|]; [|discriminate]. injection H as <-. destruct (IH (a, b) eq_refl) as (t & E). exists t. cbn [fst app] in *. congruence. }
    destruct (cut_sep "#"%char u) as [p|]; [apply (G p eq_refl)|exists []; rewrite app_nil_r; reflexivity]. }
  destruct (cut_or "#"%char u) as [v frag]. cbn [fst] in CU. destruct CU as (tail & ->). destruct (parse_before_fragment v) as [h0|] eqn:P; [|discriminate]. destruct (set_text MFragment frag) as [[f raw]|]; [|discriminate].
  intro H. assert (ES : hu_scheme h = hu_scheme h0) by (injection H as <-; reflexivity). rewrite ES. clear H ES.
  intro NE. unfold parse_before_fragment in P. destruct (existsb is_ctl v); [discriminate|]. destruct (seqb v (B "*")); [injection P as <-; destruct (NE eq_refl)|].
  unfold get_scheme in P. destruct (scheme_loop true [] v) as [[[sc rest]|]|] eqn:SL; [| |discriminate].
  - apply scheme_loop_inv in SL as (sc' & E1 & E2). cbn [fst snd app] in E1, E2. subst sc'. exists sc, (rest ++ tail). split; [rewrite E2, <- app_assoc; reflexivity|].
    revert P. cbv zeta. match goal with |- (let '(_, _) := ?x in _) = _ -> _ => destruct x as [rr qq] end.
    match goal with |- (if ?c then _ else _) = _ -> _ => destruct c end; [intro P; injection P as <-; reflexivity|]. match goal with |- (if ?c then _ else _) = _ -> _ => destruct c end; [discriminate|].
    match goal with |- (let '(_, _) := ?x in _) = _ -> _ => destruct x as [aa pp] end. destruct (parse_host aa); [|discriminate]. destruct (set_text MPath pp) as [[p raw']|]; [|discriminate]. intro P. injection P as <-. reflexivity.
  - exfalso. revert P. cbv zeta. cbn [map]. match goal with |- (let '(_, _) := ?x in _) = _ -> _ => destruct x as [rr qq] end.
    match goal with |- (if ?c then _ else _) = _ -> _ => destruct c end; [intro P; injection P as <-; apply NE; reflexivity|]. match goal with |- (if ?c then _ else _) = _ -> _ => destruct c end; [discriminate|].
    match goal with |- (let '(_, _) := ?x in _) = _ -> _ => destruct x as [aa pp] end. destruct (parse_host aa); [|discriminate]. destruct (set_text MPath pp) as [[p raw']|]; [|discriminate]. intro P. injection P as <-. apply NE. reflexivity.
Qed.
(** What passes begins with "ws:" or "wss:", in any case. *)
Theorem C127_scheme u : is_valid_relay_url u = true -> exists sc rest, u = sc ++ ":"%char :: rest /\ (map lower sc = B "ws" \/ map lower sc = B "wss").
Proof.
  unfold is_valid_relay_url. destruct (url_parse u) as [h|] eqn:P; [|discriminate]. intro H.
  assert (HS : hu_scheme h = B "ws" \/ hu_scheme h = B "wss"). { destruct (seqb_spec (hu_scheme h) (B "wss")) as [->|]; [auto|]. destruct (seqb_spec (hu_scheme h) (B "ws")) as [->|]; [auto|]. discriminate. }
  destruct (parse_scheme u h P) as (sc & rest & E1 & E2); [destruct HS as [-> | ->]; discriminate|]. exists sc, rest. split; [exact E1|]. rewrite E2. exact HS.
Qed.

Lemma parse_any sc w p : scheme_spelling sc w -> B w <> [] -> plain_ok p = true -> url_parse (sc ++ B "://" ++ host_of p ++ pl_path p) = Some (mkHUrl (B w) [] (host_of p) false (pl_path p) [] false [] [] []).
Proof.
  intros [SL SW] NE H. set (u := sc ++ B "://" ++ host_of p ++ pl_path p).
  assert (PC : forallb path_char (pl_path p) = true) by (unfold plain_ok in H; rewrite !andb_true_iff in H; apply H).
  assert (W : forallb wide_char u = true).
  { unfold u. rewrite !forallb_app, !andb_true_iff. split; [eapply forallb_impl; [|exact SL]; apply char_impl; vm_compute; reflexivity|]. split; [vm_compute; reflexivity|]. split; [eapply forallb_impl; [exact host_wide|apply host_chars, H]|eapply forallb_impl; [exact path_wide|exact PC]]. }
  unfold url_parse, cut_or. rewrite cut_sep_without by (apply (without_chars wide_char); [reflexivity|exact W]).
  assert (PB : parse_before_fragment u = Some (mkHUrl (B w) [] (host_of p) false (pl_path p) [] false [] [] [])); [|rewrite PB; reflexivity].
  unfold parse_before_fragment.
  assert (NC : existsb is_ctl u = false). { destruct (existsb _ _) eqn:E; [|reflexivity]. apply existsb_exists in E as (x & Hx & E). rewrite forallb_forall in W. specialize (W x Hx). unfold wide_char in W. rewrite E, andb_false_r in W. discriminate W. }
  rewrite NC. assert (SN : sc <> []) by (intros ->; cbn in SW; congruence).
  assert (ST : seqb u (B "*") = false). { destruct (seqb _ _) eqn:E; [|reflexivity]. apply seqb_eq in E. unfold u in E. destruct sc as [|x sc']; [congruence|]. cbn [app] in E. injection E as E1 E2. destruct sc'; discriminate E2. }
  rewrite ST. unfold u. change (B "://") with (":"%char :: B "//"). cbn [app]. unfold get_scheme. rewrite (scheme_letters sc SL true [] _ (fun _ => SN)). cbn [app]. rewrite SW.
  set (hp := B "//" ++ host_of p ++ pl_path p). change ("/"%char :: "/"%char :: host_of p ++ pl_path p) with hp.
  assert (HQ : without "?"%char hp = true).
  { unfold hp. rewrite !without_app, !andb_true_iff. split; [reflexivity|]. split; [apply (without_chars host_char); [reflexivity|apply host_chars, H]|]. apply (without_chars path_char); [reflexivity|exact PC]. }
  rewrite (last_is_without _ _ HQ). cbn [andb]. unfold cut_or. rewrite cut_sep_without by exact HQ. change (has_prefix hp (B "/")) with true. cbn [negb andb]. change (has_prefix hp (B "//")) with true. rewrite andb_true_r.
  assert (SC : match B w with [] => false | _ => true end = true) by (destruct (B w); [congruence|reflexivity]). rewrite SC. cbn [orb]. change (skipn 2 hp) with (host_of p ++ pl_path p).
  assert (HS : without "/"%char (host_of p) = true) by (apply (without_chars host_char); [reflexivity|apply host_chars, H]).
  assert (AU : match index (host_of p ++ pl_path p) (B "/") with Some i => (firstn i (host_of p ++ pl_path p), skipn i (host_of p ++ pl_path p)) | None => (host_of p ++ pl_path p, []) end = (host_of p, pl_path p)).
  { pose proof H as H0. unfold plain_ok in H0. rewrite !andb_true_iff in H0. destruct H0 as ((_ & P) & _). destruct (pl_path p) as [|c r].
    - rewrite app_nil_r, index_slash_none by exact HS. reflexivity.
    - cbn [nonempty negb orb] in P. change (B "/") with ["/"%char] in P. cbn [has_prefix] in P. rewrite andb_true_r in P. apply Ascii.eqb_eq in P as <-. rewrite index_slash by exact HS.
      rewrite firstn_app, Nat.sub_diag, firstn_all, skipn_app, Nat.sub_diag, skipn_all. cbn. rewrite app_nil_r. reflexivity. }
  rewrite AU, (host_parse p H), (path_text p H). reflexivity.
Qed.
(** An ordinary address passes exactly if its scheme is one of the two. *)
Theorem C127_plain sc w p : scheme_spelling sc w -> B w <> [] -> plain_ok p = true -> is_valid_relay_url (sc ++ B "://" ++ host_of p ++ pl_path p) = true <-> w = "ws"%string \/ w = "wss"%string.
Proof.
  intros S1 NE H. unfold is_valid_relay_url. rewrite (parse_any sc w p S1 NE H). cbn [hu_scheme].
  assert (IJ : forall a b, B a = B b -> a = b) by (intros a b E; rewrite <- (string_of_list_ascii_of_string a), <- (string_of_list_ascii_of_string b); unfold B in E; rewrite E; reflexivity).
  destruct (seqb_spec (B w) (B "wss")) as [E|N1]; [apply IJ in E; cbn; tauto|]. destruct (seqb_spec (B w) (B "ws")) as [E|N2]; [apply IJ in E; cbn; tauto|]. cbn. split; [discriminate|]. intros [-> | ->]; congruence.
Qed.
(** What passes need not have a host, so it need not be the address of anything. *)
Theorem C127_no_host_refuted : Forall (fun u => is_valid_relay_url u = true /\ exists h, url_parse u = Some h /\ hu_host h = []) [B "ws:"; B "wss://"; B "wss:relay.example"; B "WS:///path"].
Proof. repeat constructor; try (vm_compute; reflexivity); eexists; (split; [vm_compute; reflexivity|reflexivity]). Qed.
Example C127_plain_example : plain_ok (mkPlain true (B "relay.example") (Some (B "7777")) (B "/inbox") []) = true /\ is_valid_relay_url (B "wSs://relay.example:7777/inbox") = true /\ is_valid_relay_url (B "https://relay.example") = false.
Proof. repeat split; vm_compute; reflexivity. Qed.

(** ** Tags *)
(** The relay of a tag is its third item, in normal form, for "e" and "p" tags. *)
Theorem C127_tag_relay normalize t r : tag_relay normalize t = r -> r <> [] -> exists k v u rest, t = k :: v :: u :: rest /\ (k = B "e" \/ k = B "p") /\ r = normalize u.
Proof.
  intros H NE. destruct t as [|k [|v [|u rest]]]; try (cbn in H; congruence). cbn [tag_relay] in H. exists k, v, u, rest. split; [reflexivity|].
  destruct (seqb_spec k (B "e")) as [->|N1]; [cbn in H; auto|]. destruct (seqb_spec k (B "p")) as [->|N2]; [cbn in H; auto|]. cbn in H. congruence.
Qed.
(** "a" tags have a relay in the same place, which is not given. *)
Theorem C127_a_tag_refuted normalize : exists t r, t = [B "a"; B "30023:k:d"; r] /\ r <> [] /\ tag_relay normalize t = [].
Proof. exists [B "a"; B "30023:k:d"; B "wss://x"], (B "wss://x"). split; [reflexivity|]. split; [discriminate|reflexivity]. Qed.
(** All gives the tags GetAll gives, each with its place, until the caller stops; the one at which it stops is still given. *)
Inductive taken {A} (want : A -> bool) : list A -> list A -> Prop :=
| taken_end : taken want [] []
| taken_stop x l : want x = false -> taken want (x :: l) [x]
| taken_go x l r : want x = true -> taken want l r -> taken want (x :: l) (x :: r).
Definition numbered (i : nat) (ts : list tag) : list (nat * tag) := combine (seq i (length ts)) ts.
Theorem C127_all i ts prefix want : prefix <> [] -> exists sel r, tags_all i ts prefix want = Ok r /\
  selects (fun p => tag_begins (snd p) prefix) (numbered i ts) sel /\ taken (fun p => want (fst p) (snd p)) sel r.
Proof.
  intro NE. revert i. induction ts as [|t ts IH]; intro i; [exists [], []; split; [reflexivity|split; constructor]|]. cbn [tags_all]. unfold numbered. cbn [length seq combine]. fold (numbered (S i) ts).
  destruct (IH (S i)) as (sel & r & E & Q & T). destruct (starts_with_ok t prefix NE) as (b & SW). rewrite SW. destruct b.
  - assert (TB : tag_begins t prefix) by (apply tag_begins_starts, starts_with_spec; assumption). destruct (want i t) eqn:W.
    + rewrite E. cbn [obind]. exists ((i, t) :: sel), ((i, t) :: r). split; [reflexivity|]. split; [apply sel_keep; assumption|apply taken_go; assumption].
    + exists ((i, t) :: sel), [(i, t)]. split; [reflexivity|]. split; [apply sel_keep; assumption|apply taken_stop; assumption].
  - assert (TB : ~ tag_begins t prefix) by (intro TB; apply tag_begins_starts, starts_with_spec in TB; [congruence|exact NE]). exists sel, r. split; [exact E|]. split; [apply sel_drop; assumption|exact T].
Qed.
(** Scan reports no error for text that is no list of tags. *)
Theorem C127_scan_refuted unmarshal old s : (exists b, s = SBytes b \/ s = SString b) -> snd (tags_scan unmarshal old s) = true.
Proof. intros (b & [-> | ->]); reflexivity. Qed.
Theorem C127_scan unmarshal old b ts : unmarshal b old = (ts, true) -> tags_scan unmarshal old (SBytes b) = (ts, true) /\ tags_scan unmarshal old (SString b) = (ts, true) /\ tags_scan unmarshal old SOther = (old, false).
Proof. intro H. unfold tags_scan. rewrite H. repeat split. Qed.
Example C127_all_example : tags_all 0 [[B "e"; B "1"]; [B "p"; B "2"]; [B "e"; B "3"]; [B "e"; B "4"]] [B "e"] (fun i _ => Nat.ltb i 2) = Ok [(0, [B "e"; B "1"]); (2, [B "e"; B "3"])].
Proof. vm_compute. reflexivity. Qed.

Print Assumptions C127_scheme.
Print Assumptions C127_plain.
Print Assumptions C127_no_host_refuted.
Print Assumptions C127_tag_relay.
Print Assumptions C127_a_tag_refuted.
Print Assumptions C127_all.
Print Assumptions C127_scan_refuted.
Print Assumptions C127_scan.
