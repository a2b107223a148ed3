(** Normalisation and authentication: C76 and C77. *)
From Verif Require Import Base EventModel EventProofs TagsModel TagsProofs CryptoModel CryptoProofs AuthModel.
Import ListNotations.

Lemma ceqb_refl a : ceqb a a = true.
Proof. apply Ascii.eqb_refl. Qed.
Lemma ceqb_eq a b : ceqb a b = true -> a = b.
Proof. apply Ascii.eqb_eq. Qed.

(** * C76: messages *)
(** Spec: a message has a machine-readable prefix when it is a word without spaces, a colon, a space, and anything. *)
Definition no_space (s : str) : Prop := ~ In space s.
Definition prefixed (m : str) : Prop := exists a b, m = a ++ B ": " ++ b /\ no_space a.
Lemma no_space_b s : existsb (fun c => ceqb c space) s = false <-> no_space s.
Proof.
  unfold no_space. split.
  - intros H I. apply not_true_iff_false in H. apply H. apply existsb_exists. exists space. split; [exact I|apply ceqb_refl].
  - intro H. apply not_true_is_false. intro T. apply existsb_exists in T. destruct T as (x & I & E). apply ceqb_eq in E. subst. exact (H I).
Qed.
Lemma before_some m a : before_sep m = Some a -> exists b, m = a ++ B ": " ++ b.
Proof.
  revert a. induction m as [|c r IH]; intros a H; [discriminate|]. cbn [before_sep] in H. destruct (ceqb c colon && _) eqn:E.
  - assert (a = []) as -> by congruence. apply andb_prop in E. destruct E as [E1 E2]. apply ceqb_eq in E1. destruct r as [|d r]; [discriminate|]. apply ceqb_eq in E2. subst. exists r. reflexivity.
  - destruct (before_sep r) as [a'|] eqn:F; [|discriminate]. assert (a = c :: a') as -> by congruence. destruct (IH a' eq_refl) as [b ->]. exists b. reflexivity.
Qed.
(** the first separator is no later than any other *)
Lemma before_first a b : no_space a -> before_sep (a ++ B ": " ++ b) = Some a.
Proof.
  unfold no_space. induction a as [|c a IH]; intro H; [reflexivity|]. cbn [app before_sep]. destruct (ceqb c colon && _) eqn:E.
  - exfalso. apply andb_prop in E. destruct E as [_ E]. destruct a as [|d a]; cbn [app] in E; [discriminate|]. apply ceqb_eq in E. apply H. right. left. exact E.
  - rewrite IH; [reflexivity|]. intro I. apply H. right. exact I.
Qed.
(** Exactly: a message that has a prefix is kept, any other gets the prefix given. *)
Theorem C76_message reason prefix : (prefixed reason -> normalize_ok reason prefix = reason) /\ (~ prefixed reason -> normalize_ok reason prefix = prefix ++ B ": " ++ reason).
Proof.
  unfold normalize_ok. split.
  - intros (a & b & -> & N). rewrite before_first by exact N. apply no_space_b in N. rewrite N. reflexivity.
  - intro H. destruct (before_sep reason) as [a|] eqn:E; [|reflexivity]. destruct (existsb _ a) eqn:F; [reflexivity|]. destruct H. destruct (before_some _ _ E) as [b ->]. exists a, b. split; [reflexivity|]. apply no_space_b. exact F.
Qed.
Lemma prefixed_dec m : prefixed m \/ ~ prefixed m.
Proof.
  destruct (before_sep m) as [a|] eqn:E.
  - destruct (before_some _ _ E) as [b B_]. destruct (existsb (fun c => ceqb c space) a) eqn:F.
    + right. intros (a' & b' & M & N). rewrite M, before_first in E by exact N. assert (a' = a) as -> by congruence. apply no_space_b in N. congruence.
    + left. exists a, b. split; [exact B_|]. apply no_space_b. exact F.
  - right. intros (a' & b' & M & N). rewrite M, before_first in E by exact N. discriminate.
Qed.
Theorem C76_message_prefixed reason prefix : no_space prefix -> prefixed (normalize_ok reason prefix).
Proof.
  intro N. destruct (C76_message reason prefix) as [H1 H2]. destruct (prefixed_dec reason) as [P|P]; [rewrite H1 by exact P; exact P|]. rewrite H2 by exact P. exists prefix, reason. split; [reflexivity|exact N].
Qed.
Theorem C76_message_idempotent reason prefix other : no_space prefix -> normalize_ok (normalize_ok reason prefix) other = normalize_ok reason prefix.
Proof. intro N. apply (proj1 (C76_message _ other)). apply C76_message_prefixed. exact N. Qed.
Example C76_message_applies : normalize_ok (B "too many: slow down") (B "rate-limited") = B "rate-limited: too many: slow down" /\ normalize_ok (B "blocked: go away") (B "error") = B "blocked: go away".
Proof. split; vm_compute; reflexivity. Qed.
(** With a space in the prefix it is added each time; a message that begins with the separator counts as prefixed. *)
Theorem C76_space_refuted : exists reason prefix, normalize_ok (normalize_ok reason prefix) prefix = prefix ++ B ": " ++ prefix ++ B ": " ++ reason.
Proof. exists (B "no"), (B "rate limited"). vm_compute. reflexivity. Qed.
Theorem C76_empty_prefix_refuted : exists reason, normalize_ok reason (B "error") = reason /\ hd_error reason = Some colon.
Proof. exists (B ": boom"). split; vm_compute; reflexivity. Qed.

(** * C76: URLs. What is missing for a full proof: the third-party parser reads back what is written. *)
Lemma trim_slashes_idem s : trim_slashes (trim_slashes s) = trim_slashes s.
Proof.
  induction s as [|c r IH]; [reflexivity|]. cbn [trim_slashes]. destruct (trim_slashes r) as [|d t] eqn:E.
  - destruct (ceqb c "/"%char) eqn:F; [reflexivity|]. cbn [trim_slashes]. rewrite F. reflexivity.
  - change (trim_slashes (c :: d :: t)) with (match trim_slashes (d :: t) with [] => if ceqb c "/"%char then [] else [c] | t => c :: t end). rewrite IH. reflexivity.
Qed.
Lemma relay_protocol_fixed p : let pr := relay_protocol p in pr <> [] /\ pr <> B "https" /\ pr <> B "http".
Proof.
  cbv zeta. unfold relay_protocol. destruct (fu_protocol p) as [|x y].
  - destruct (_ || _); repeat split; discriminate.
  - destruct (seqb_spec (x :: y) (B "https")); [repeat split; discriminate|]. destruct (seqb_spec (x :: y) (B "http")); [repeat split; discriminate|]. repeat split; [discriminate|assumption|assumption].
Qed.
Lemma settle_fixed low p : (forall s, low (low s) = low s) -> (fu_port (settle low p) <> [] \/ length (fu_protocol (settle low p)) <= 5) -> settle low (settle low p) = settle low p.
Proof.
  intros LL H. set (q := settle low p) in *. assert (Q : fu_protocol q <> [] /\ fu_protocol q <> B "https" /\ fu_protocol q <> B "http") by apply relay_protocol_fixed. assert (HL : low (fu_host q) = fu_host q) by apply LL. assert (HT : trim_slashes (fu_path q) = fu_path q) by apply trim_slashes_idem. clearbody q. clear p. destruct q as [pr h po pa qu]. cbn [fu_protocol fu_host fu_port fu_path fu_query] in *. destruct Q as (Q1 & Q2 & Q3).
  assert (S : swap_port (mkUrl pr h po pa qu) = mkUrl pr h po pa qu). { unfold swap_port. cbn [fu_port fu_protocol]. destruct po; [|reflexivity]. destruct (Nat.ltb_spec 5 (length pr)); [|reflexivity]. destruct H; [congruence|lia]. }
  unfold settle. rewrite S. cbn [fu_protocol fu_host fu_port fu_path fu_query]. rewrite HL, HT. f_equal. unfold relay_protocol. cbn [fu_protocol]. destruct pr as [|x y]; [congruence|]. destruct (seqb_spec (x :: y) (B "https")); [congruence|]. destruct (seqb_spec (x :: y) (B "http")); [congruence|]. reflexivity.
Qed.
Theorem C76_url_partial parse trim low u p : (forall s, low (low s) = low s) -> u <> [] -> parse (trim u) = Some p ->
  let q := settle low p in (fu_port q <> [] \/ length (fu_protocol q) <= 5) -> parse (trim (render q)) = Some q ->
  normalize_url parse trim low (normalize_url parse trim low u) = normalize_url parse trim low u.
Proof.
  intros LL U P q H R. assert (N : normalize_url parse trim low u = render q). { unfold normalize_url. destruct u; [congruence|]. rewrite P. reflexivity. } rewrite N. unfold normalize_url. destruct (render q) as [|x y] eqn:E. { exfalso. unfold render in E. apply app_eq_nil in E. destruct E as [_ E]. discriminate E. } rewrite R. rewrite (settle_fixed low p LL H : settle low q = q). exact E.
Qed.
(** What does not parse stays empty. *)
Theorem C76_url_bad parse trim low u : parse (trim u) = None -> normalize_url parse trim low u = [] /\ normalize_url parse trim low [] = [].
Proof. intro H. unfold normalize_url. rewrite H. destruct u; split; reflexivity. Qed.
(** The result is always a ws or wss address when the input's protocol was empty, http or https *)
Theorem C76_url_scheme low p : length (fu_protocol p) <= 5 -> In (fu_protocol p) [[]; B "http"; B "https"; B "ws"; B "wss"] -> In (fu_protocol (settle low p)) [B "ws"; B "wss"].
Proof.
  intros L I. unfold settle. cbv zeta. cbn [fu_protocol]. assert (S : fu_protocol (swap_port p) = fu_protocol p). { unfold swap_port. destruct (fu_port p); [|reflexivity]. destruct (Nat.ltb_spec 5 (length (fu_protocol p))); [lia|reflexivity]. } unfold relay_protocol. rewrite S. destruct I as [<-|[<-|[<-|[<-|[<-|[]]]]]]; [destruct (_ || _)|..]; cbn; auto.
Qed.
(** What is written, piece by piece: "://" after the protocol, ":" before a port, "?" before a query, and no slashes at the end of the path. *)
Definition no_slash_end (path : str) : Prop := forall a, path <> a ++ B "/".
Theorem C76_url_written parse trim low u pr host port path slashes query : u <> [] -> parse (trim u) = Some (mkUrl pr host port (path ++ repeat "/"%char slashes) query) -> no_slash_end path -> (port <> [] \/ length pr <= 5) ->
  exists pr', (pr = B "https" -> pr' = B "wss") /\ (pr = B "http" -> pr' = B "ws") /\ (pr <> [] -> pr <> B "https" -> pr <> B "http" -> pr' = pr) /\ (pr = [] -> pr' = if existsb (seqb host) [B "localhost"; B "127.0.0.1"] then B "ws" else B "wss") /\
    normalize_url parse trim low u = pr' ++ B "://" ++ low host ++ (if Nat.eqb (length port) 0 then [] else B ":" ++ port) ++ path ++ (if Nat.eqb (length query) 0 then [] else B "?" ++ query).
Proof.
  intros U P N L. set (p := mkUrl pr host port (path ++ repeat "/"%char slashes) query) in *. exists (relay_protocol p).
  assert (SW : swap_port p = p). { unfold swap_port, p. cbn [fu_port fu_protocol]. destruct port; [|reflexivity]. destruct (Nat.ltb_spec 5 (length pr)); [|reflexivity]. destruct L; [congruence|lia]. }
  assert (TR : trim_slashes (path ++ repeat "/"%char slashes) = path).
  { assert (Z : trim_slashes (repeat "/"%char slashes) = []) by (clear; induction slashes as [|n IH]; [reflexivity|cbn [repeat trim_slashes]; rewrite IH; reflexivity]).
    assert (NE : forall q, q <> [] -> no_slash_end q -> trim_slashes (q ++ repeat "/"%char slashes) = q).
    { induction q as [|c q IH]; intros Q NS; [congruence|]. cbn [app trim_slashes]. destruct q as [|d q].
      - cbn [app]. rewrite Z. destruct (ceqb c "/"%char) eqn:E; [|reflexivity]. apply Ascii.eqb_eq in E. subst. destruct (NS [] eq_refl).
      - rewrite IH; [reflexivity|discriminate|]. intros a E. apply (NS (c :: a)). rewrite E. reflexivity. }
    destruct path as [|c q]; [exact Z|]. apply NE; [discriminate|exact N]. }
  assert (E : normalize_url parse trim low u = render (settle low p)) by (unfold normalize_url; destruct u; [congruence|]; rewrite P; reflexivity).
  unfold relay_protocol. cbn [p fu_protocol fu_host existsb]. split; [intros ->; reflexivity|]. split; [intros ->; reflexivity|]. split.
  { intros A1 A2 A3. destruct pr; [congruence|]. destruct (seqb_spec (a :: pr) (B "https")); [congruence|]. destruct (seqb_spec (a :: pr) (B "http")); [congruence|]. reflexivity. }
  split; [intros ->; rewrite orb_false_r; reflexivity|]. rewrite E. unfold settle. rewrite SW. unfold render. cbn [fu_protocol fu_host fu_port fu_path fu_query p]. rewrite TR. unfold relay_protocol. cbn [fu_protocol fu_host].
  destruct port, query; reflexivity.
Qed.
Example C76_url_written_example : normalize_url (fun _ => Some (mkUrl (B "http") (B "h") (B "81") (B "/a//") (B "q=1"))) (fun s => s) (fun s => s) (B "x") = B "ws://h:81/a?q=1".
Proof. reflexivity. Qed.
(** A toy parser for which the hypotheses hold: [host] alone, or protocol://host *)
Definition id_str (s : str) : str := s.
Definition toy_parse (u : str) : option furl := if seqb u (B "wss://relay.x") then Some (mkUrl (B "wss") (B "relay.x") [] [] []) else if seqb u (B "https://relay.x/") then Some (mkUrl (B "https") (B "relay.x") [] (B "/") []) else None.
Example C76_url_applies : normalize_url toy_parse id_str id_str (B "https://relay.x/") = B "wss://relay.x" /\ normalize_url toy_parse id_str id_str (B "wss://relay.x") = B "wss://relay.x" /\
  (let q := settle id_str (mkUrl (B "https") (B "relay.x") [] (B "/") []) in length (fu_protocol q) <= 5 /\ toy_parse (render q) = Some q).
Proof. repeat split; vm_compute; try reflexivity. repeat constructor. Qed.
(** A protocol of more than five letters and no port: the protocol becomes the host, and the host the port, so doing it twice gives something else again. *)
Theorem C76_url_protocol_refuted low p : fu_port p = [] -> 5 < length (fu_protocol p) -> fu_host (settle low p) = low (fu_protocol p) /\ fu_port (settle low p) = fu_host p.
Proof. intros P L. unfold settle, swap_port. rewrite P. destruct (Nat.ltb_spec 5 (length (fu_protocol p))); [split; reflexivity|lia]. Qed.

(** * C77: authentication events *)
Section Auth.
Local Open Scope Z_scope.
Context (c : prims) (url_parse : str -> option (str * str * str)) (low : str -> str).
(** Spec: two addresses are the same relay for this code when both parse, after lowering and dropping one slash, to the same scheme, host and path. *)
Definition drop_slash (s t : str) : Prop := s = t ++ B "/" \/ (s = t /\ forall u, s <> u ++ B "/").
Definition same_relay (a b : str) : Prop := exists a' b' x, drop_slash a a' /\ drop_slash b b' /\ url_parse (low a') = Some x /\ url_parse (low b') = Some x.
Definition first_value (k v : str) (ts : list tag) : Prop := exists a t b, ts = a ++ (k :: v :: t) :: b /\ Forall (fun x => forall w r, x <> k :: w :: r) a.
Lemma trim_suffix_spec s : drop_slash s (trim_suffix s).
Proof.
  unfold drop_slash, trim_suffix. destruct (rev s) as [|x r] eqn:E. { right. split; [reflexivity|]. intros u H. apply (f_equal (@length _)) in H. rewrite <- (rev_involutive s), E in H. rewrite app_length in H. cbn in H. lia. }
  assert (S : s = rev r ++ [x]) by (rewrite <- (rev_involutive s), E; reflexivity). destruct (ceqb x "/"%char) eqn:F.
  - apply ceqb_eq in F. subst x. left. exact S.
  - right. split; [reflexivity|]. intros u H. rewrite S in H. apply app_inj_tail in H. destruct H as [_ ->]. rewrite ceqb_refl in F. discriminate.
Qed.
Lemma drop_slash_fun s t u : drop_slash s t -> drop_slash s u -> t = u.
Proof.
  intros [->|[-> N]] [E|[E M]]; try congruence. apply app_inv_tail in E. exact E.
Qed.
Lemma parse_relay_spec a x : parse_relay url_parse low a = Some x <-> exists a', drop_slash a a' /\ url_parse (low a') = Some x.
Proof. unfold parse_relay. split. { intro H. exists (trim_suffix a). split; [apply trim_suffix_spec|exact H]. } intros (a' & D & H). rewrite (drop_slash_fun a _ a' (trim_suffix_spec a) D). exact H. Qed.
Lemma find_first_value ts k t : find_tag ts k = Some t -> exists v, nth_error t 1 = Some v /\ first_value k v ts.
Proof.
  induction ts as [|[|x [|v r]] ts IH]; cbn [find_tag]; intro H; [discriminate| | |].
  - destruct (IH H) as (v & N & a & t' & b & -> & F). exists v. split; [exact N|]. exists ([] :: a), t', b. split; [reflexivity|]. constructor; [discriminate|exact F].
  - destruct (IH H) as (v & N & a & t' & b & -> & F). exists v. split; [exact N|]. exists ([x] :: a), t', b. split; [reflexivity|]. constructor; [discriminate|exact F].
  - destruct (seqb_spec x k) as [->|D]. { assert (t = k :: v :: r) as -> by congruence. exists v. split; [reflexivity|]. exists [], r, ts. split; [reflexivity|constructor]. }
    destruct (IH H) as (v' & N & a & t' & b & -> & F). exists v'. split; [exact N|]. exists ((x :: v :: r) :: a), t', b. split; [reflexivity|]. constructor; [congruence|exact F].
Qed.
Lemma wrap_near created now : 0 <= now -> -9223372036854775808 <= created < 9223372036854775808 -> clock_ns now - ten_minutes <= event_ns created -> event_ns created <= clock_ns now + ten_minutes -> now < 9000000000000000000000000000 -> event_ns created = (created + year1) * 1000000000.
Proof.
  unfold clock_ns, event_ns, ten_minutes, year1, wrap64. intros N C L U M. assert (created + 62135596800 < 9223372036854775808 \/ 9223372036854775808 <= created + 62135596800) as [K|K] by lia.
  - rewrite Z.mod_small by lia. lia.
  - exfalso. assert (E : (created + 62135596800 + 9223372036854775808) mod 18446744073709551616 = created + 62135596800 - 9223372036854775808). { symmetry. apply (Z.mod_unique_pos _ _ 1); lia. } rewrite E in L. lia.
Qed.
(** Accepted only if everything is right. [now]: any clock from 1970 on; timestamps are 64-bit. *)
Theorem C77_sound e challenge relay now pk : 0 <= now < 9000000000000000000000000000 -> -9223372036854775808 <= ev_created_at e < 9223372036854775808 ->
  validate_auth c url_parse low e challenge relay now = Ok (Some pk) ->
  pk = ev_pubkey e /\ ev_kind e = 22242 /\ (exists rest, In (B "challenge" :: challenge :: rest) (ev_tags e)) /\
  (exists r, first_value (B "relay") r (ev_tags e) /\ same_relay relay r) /\
  Z.abs (ev_created_at e * 1000000000 - now) <= 600 * 1000000000 /\ sig_ok c e = Ok true.
Proof.
  intros HN HC H. unfold validate_auth in H. destruct (Z.eqb_spec (ev_kind e) 22242) as [K|]; [cbn [negb] in H|discriminate]. destruct (find_with_value _ _ _) as [t0|] eqn:F; [|discriminate]. destruct (parse_relay url_parse low relay) as [[[s1 h1] p1]|] eqn:P1; [|discriminate].
  destruct (find_tag _ _) as [t|] eqn:T; [|discriminate]. destruct (find_first_value _ _ _ T) as (r & R & FV). rewrite R in H. destruct (parse_relay url_parse low r) as [[[s2 h2] p2]|] eqn:P2; [|discriminate].
  destruct (seqb_spec s1 s2) as [->|]; [|discriminate]. destruct (seqb_spec h1 h2) as [->|]; [|discriminate]. destruct (seqb_spec p1 p2) as [->|]; [|discriminate]. cbn [negb orb] in H.
  destruct (Z.ltb_spec (clock_ns now + ten_minutes) (event_ns (ev_created_at e))) as [|W1]; [discriminate|]. destruct (Z.ltb_spec (event_ns (ev_created_at e)) (clock_ns now - ten_minutes)) as [|W2]; [discriminate|]. cbn [orb] in H.
  destruct (sig_ok c e) as [[|]| |] eqn:G; try discriminate. split; [congruence|]. split; [exact K|]. split.
  { clear - F. induction (ev_tags e) as [|[|x [|v w]] ts IH]; cbn [find_with_value] in F; [discriminate| | |]; try (destruct (IH F) as [q Q]; exists q; right; exact Q). destruct (seqb_spec v challenge) as [->|]; cbn [andb] in F. 2: { destruct (IH F) as [q Q]; exists q; right; exact Q. } destruct (seqb_spec x (B "challenge")) as [->|]; [exists w; left; reflexivity|]. destruct (IH F) as [q Q]; exists q; right; exact Q. }
  split. { exists r. split; [exact FV|]. apply parse_relay_spec in P1, P2. destruct P1 as (a' & A1 & A2). destruct P2 as (b' & B1 & B2). exists a', b', (s2, h2, p2). auto. }
  split; [|reflexivity]. assert (X := wrap_near (ev_created_at e) now ltac:(lia) HC W2 W1 ltac:(lia)). rewrite X in W1, W2. unfold clock_ns, ten_minutes in W1, W2. lia.
Qed.
(** It never crashes, and what an accepted or refused event is does not depend on anything else: the converse holds too. *)
Theorem C77_complete e challenge relay now r : 0 <= now < 9000000000000000000000000000 -> -9223372036854775808 <= ev_created_at e < 9223372036854775808 ->
  ev_kind e = 22242 -> (exists rest, In (B "challenge" :: challenge :: rest) (ev_tags e)) -> first_value (B "relay") r (ev_tags e) -> same_relay relay r ->
  Z.abs (ev_created_at e * 1000000000 - now) <= 600 * 1000000000 -> sig_ok c e = Ok true -> validate_auth c url_parse low e challenge relay now = Ok (Some (ev_pubkey e)).
Proof.
  intros HN HC K (rest & I) FV (a' & b' & [[s h] p] & A1 & B1 & A2 & B2) W G. unfold validate_auth. rewrite K. cbn [Z.eqb Pos.eqb negb].
  destruct (find_with_value _ _ _) as [t0|] eqn:F. 2: { exfalso. clear - F I. induction (ev_tags e) as [|[|x [|v w]] ts IH]; cbn [find_with_value] in F; [destruct I| | |]. { destruct I as [I|I]; [discriminate|exact (IH I F)]. } { destruct I as [I|I]; [discriminate|exact (IH I F)]. } destruct I as [I|I]; [|destruct (seqb v challenge && seqb x (B "challenge")); [discriminate|exact (IH I F)]]. assert (x = B "challenge" /\ v = challenge) as [-> ->] by (split; congruence). rewrite !seqb_refl in F. discriminate. }
  rewrite (proj2 (parse_relay_spec relay (s, h, p))) by (exists a'; auto). destruct FV as (a & t & b & E & NF).
  assert (T : find_tag (ev_tags e) (B "relay") = Some (B "relay" :: r :: t)). { rewrite E. clear - NF. induction NF as [|x a H NF IH]; cbn [app find_tag]; [rewrite seqb_refl; reflexivity|]. destruct x as [|x1 [|x2 x3]]; [exact IH|exact IH|]. destruct (seqb_spec x1 (B "relay")) as [->|]; [destruct (H x2 x3); reflexivity|exact IH]. }
  rewrite T. cbn [nth_error]. rewrite (proj2 (parse_relay_spec r (s, h, p))) by (exists b'; auto). rewrite !seqb_refl. cbn [negb orb].
  assert (X : event_ns (ev_created_at e) = (ev_created_at e + year1) * 1000000000). { unfold event_ns, wrap64, year1. rewrite Z.mod_small by lia. lia. } rewrite X. unfold clock_ns, ten_minutes.
  destruct (Z.ltb_spec (now + year1 * 1000000000 + 600000000000) ((ev_created_at e + year1) * 1000000000)); [lia|]. destruct (Z.ltb_spec ((ev_created_at e + year1) * 1000000000) (now + year1 * 1000000000 - 600000000000)); [lia|]. cbn [orb]. rewrite G. reflexivity.
Qed.
Theorem C77_no_panic e challenge relay now : validate_auth c url_parse low e challenge relay now <> Panic.
Proof.
  unfold validate_auth. destruct (negb _); [discriminate|]. destruct (find_with_value _ _ _) as [t0|]; [|discriminate]. destruct (parse_relay _ _ relay) as [[[? ?] ?]|]; [|discriminate]. destruct (find_tag _ _) as [t|] eqn:T; [|discriminate]. destruct (find_first_value _ _ _ T) as (r & -> & _). destruct (parse_relay _ _ r) as [[[? ?] ?]|]; [|discriminate]. destruct (_ || _); [discriminate|]. destruct (_ || _); [discriminate|].
  unfold sig_ok, check_signature. destruct (hex_decode _); [|discriminate]. destruct (p_parse_pk _ _); [|discriminate]. destruct (hex_decode _); [|discriminate]. destruct (p_parse_sig _ _); [|discriminate]. destruct (p_verify _ _ _ _); discriminate.
Qed.
(** There is always an answer: a key or none. *)
Theorem C77_answers e challenge relay now : exists r, validate_auth c url_parse low e challenge relay now = Ok r.
Proof.
  unfold validate_auth. destruct (negb _); [eexists; reflexivity|]. destruct (find_with_value _ _ _) as [t0|]; [|eexists; reflexivity]. destruct (parse_relay _ _ relay) as [[[? ?] ?]|]; [|eexists; reflexivity]. destruct (find_tag _ _) as [t|] eqn:T; [|eexists; reflexivity]. destruct (find_first_value _ _ _ T) as (r & -> & _). destruct (parse_relay _ _ r) as [[[? ?] ?]|]; [|eexists; reflexivity]. destruct (_ || _); [eexists; reflexivity|]. destruct (_ || _); [eexists; reflexivity|].
  unfold sig_ok, check_signature. destruct (hex_decode _); [|eexists; reflexivity]. destruct (p_parse_pk _ _); [|eexists; reflexivity]. destruct (hex_decode _); [|eexists; reflexivity]. destruct (p_parse_sig _ _); [|eexists; reflexivity]. destruct (p_verify _ _ _ _); eexists; reflexivity.
Qed.
(** The event the library makes, signed: accepted for the address it was made for, if that parses, while the clock is within 599 seconds. *)
Theorem C77_created (valid : str -> Prop) (L : lawful c valid) sk challenge pubkey relay made now e : 0 <= made -> made <= now -> now < 9000000000000000000000000000 -> now - made <= 599 * 1000000000 ->
  (exists x r, drop_slash relay r /\ url_parse (low r) = Some x) ->
  sign_with c sk (unsigned_auth challenge pubkey relay (made / 1000000000)) = Ok e ->
  validate_auth c url_parse low e challenge relay now = Ok (Some (ev_pubkey e)) /\ public_key c sk = Ok (ev_pubkey e).
Proof.
  intros M1 M2 M3 M4 (x & r & D & P) S. destruct (sign_verifies (p_sha c) (p_PK c) (p_SG c) (p_parse_pk c) (p_parse_sig c) (p_verify c) (p_pub c) (p_schnorr c) (l_sha c valid L) (l_sig c valid L) _ _ _ S) as (G1 & _ & _ & G2 & _ & G3 & G4 & G5).
  split; [|exact G1]. assert (Q := Z_div_mod_eq_full made 1000000000). assert (Q2 := Z.mod_pos_bound made 1000000000 ltac:(lia)). assert (Q3 : 0 <= made / 1000000000) by (apply Z.div_pos; lia).
  apply C77_complete with (r := relay); rewrite ?G3, ?G4, ?G5; unfold unsigned_auth; cbn [ev_created_at ev_kind ev_tags]; try lia.
  - exists []. right. left. reflexivity.
  - exists [], [], [[B "challenge"; challenge]]. split; [reflexivity|constructor].
  - exists r, r, x. auto.
  - exact G2.
Qed.
End Auth.

(** ** A case, and what is not checked *)
Definition toy_url (s : str) : option (str * str * str) := if seqb s (B "wss://r/a") then Some (B "wss", B "r", B "/a") else if seqb s (B "wss://r/a?x=1") then Some (B "wss", B "r", B "/a") else None.
Definition toy_low (s : str) : str := map Bech32Model.lower s.
Definition toy_sk : str := hex_encode (repeat "a"%char 32).
Definition signed (e : event) : event := match sign_with toy toy_sk e with Ok x => x | _ => e end.
Example C77_applies : validate_auth toy toy_url toy_low (signed (unsigned_auth (B "ch") [] (B "wss://r/A/") 1000)) (B "ch") (B "wss://R/a") 1300000000000 = Ok (Some toy_sk) /\
  validate_auth toy toy_url toy_low (signed (unsigned_auth (B "ch") [] (B "wss://r/A/") 1000)) (B "ch") (B "wss://R/a") 1700000000000 = Ok None /\
  (exists e, sign_with toy toy_sk (unsigned_auth (B "ch") [] (B "wss://r/a") (5000000000 / 1000000000)) = Ok e).
Proof. split; [vm_compute; reflexivity|]. split; [vm_compute; reflexivity|]. eexists. vm_compute. reflexivity. Qed.
(** Addresses that differ in the case of the path, or in the query, are taken for the same relay. *)
Theorem C77_other_relay_refuted : exists e r1 r2, r1 <> r2 /\ ev_tags e = [[B "relay"; r1]; [B "challenge"; B "ch"]] /\ validate_auth toy toy_url toy_low e (B "ch") r2 1300000000000 = Ok (Some toy_sk).
Proof. exists (signed (unsigned_auth (B "ch") [] (B "wss://r/A?x=1") 1000)), (B "wss://r/A?x=1"), (B "wss://r/a"). split; [discriminate|]. split; vm_compute; reflexivity. Qed.
(** The id is not looked at; an empty challenge is a challenge like any other; of several relay tags only the first counts. *)
Theorem C77_id_refuted : exists e, check_id (p_sha toy) e = false /\ validate_auth toy toy_url toy_low e (B "ch") (B "wss://r/a") 1300000000000 = Ok (Some toy_sk).
Proof. exists (let e := signed (unsigned_auth (B "ch") [] (B "wss://r/a") 1000) in mkEvent (B "whatever") (ev_pubkey e) (ev_created_at e) (ev_kind e) (ev_tags e) (ev_content e) (ev_sig e)). split; vm_compute; reflexivity. Qed.
Theorem C77_empty_challenge_refuted : exists e, validate_auth toy toy_url toy_low e [] (B "wss://r/a") 1300000000000 = Ok (Some toy_sk).
Proof. exists (signed (unsigned_auth [] [] (B "wss://r/a") 1000)). vm_compute. reflexivity. Qed.
Theorem C77_first_relay_refuted : exists e, In [B "relay"; B "wss://r/a"] (ev_tags e) /\ validate_auth toy toy_url toy_low e (B "ch") (B "wss://r/a") 1300000000000 = Ok None.
Proof. exists (signed (mkEvent [] [] 1000 22242 [[B "relay"; B "wss://other"]; [B "relay"; B "wss://r/a"]; [B "challenge"; B "ch"]] [] [])). split; [vm_compute; auto|vm_compute; reflexivity]. Qed.

Print Assumptions C76_message.
Print Assumptions C76_message_prefixed.
Print Assumptions C76_message_idempotent.
Print Assumptions C76_space_refuted.
Print Assumptions C76_empty_prefix_refuted.
Print Assumptions C76_url_partial.
Print Assumptions C76_url_bad.
Print Assumptions C76_url_scheme.
Print Assumptions C76_url_protocol_refuted.
Print Assumptions C77_sound.
Print Assumptions C77_complete.
Print Assumptions C77_no_panic.
Print Assumptions C77_answers.
Print Assumptions C77_created.
Print Assumptions C77_other_relay_refuted.
Print Assumptions C77_id_refuted.
Print Assumptions C77_empty_challenge_refuted.
Print Assumptions C77_first_relay_refuted.

Print Assumptions C76_url_written.
