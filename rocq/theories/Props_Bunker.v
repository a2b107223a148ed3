(** C116: connecting to a remote signer. *)
From Verif Require Import Base Machine EventModel CipherModel CryptoModel CryptoProofs Bech32Model Nip19Model Nip19Proofs GiftModel GiftProofs KeyModel KeyProofs PowProofs IdentModel HttpUrlModel HttpUrlProofs SignerModel SignerProofs BunkerModel BunkerProofs RpcModel
  Props_Cipher Props_Gift Props_Signer Props_Key Props_Ident Props_Rpc.
Import ListNotations.
Open Scope nat_scope.
Local Open Scope bool_scope.

(** ** Reading the url *)
(** Spec: [bunker_text] writes a url from a scheme, a host, an optional slash and parameters, each in any spelling of its name and value ([param]); [named] takes the values of one name. *)
Theorem C116_reads parse_ok server sc host slash raws pairs : scheme_spelling sc "bunker" -> forallb host_char' host = true -> Forall2 param raws pairs ->
  connect_args parse_ok server (bunker_text sc host slash raws) =
  if valid_pubkey parse_ok host then Ok (host, named (B "relay") pairs, match named (B "secret") pairs with v :: _ => v | [] => [] end) else Err.
Proof.
  intros S1 H P. unfold connect_args. rewrite (url_parse_bunker _ _ _ _ _ _ S1 ltac:(discriminate) H P). cbn [hu_scheme hu_query hu_host]. change (nonempty (B "bunker")) with true. rewrite seqb_refl. cbn [negb obind fst snd]. rewrite !values_named, (parse_query_raw _ _ P). reflexivity.
Qed.
(** In particular a key, relays and a secret of any bytes come back as they were. *)
Theorem C116_round_trip parse_ok server k relays secret : valid_pubkey parse_ok k = true ->
  connect_args parse_ok server (bunker_text (B "bunker") k false (map encoded (map (fun r => (B "relay", r)) relays ++ [(B "secret", secret)]))) = Ok (k, relays, secret).
Proof.
  intro V. rewrite C116_reads with (pairs := map (fun r => (B "relay", r)) relays ++ [(B "secret", secret)]).
  - rewrite V. assert (R : named (B "relay") (map (fun r => (B "relay", r)) relays ++ [(B "secret", secret)]) = relays).
    { unfold named. rewrite filter_app, map_app. change (map snd (filter _ [(B "secret", secret)])) with (@nil str). rewrite app_nil_r. induction relays as [|r l IH]; [reflexivity|]. cbn [map filter fst]. rewrite seqb_refl. cbn [map snd]. f_equal. exact IH. }
    assert (Q : named (B "secret") (map (fun r => (B "relay", r)) relays ++ [(B "secret", secret)]) = [secret]).
    { clear R. unfold named. rewrite filter_app, map_app. replace (filter (fun p => seqb (fst p) (B "secret")) (map (fun r => (B "relay", r)) relays)) with (@nil (str * str)); [reflexivity|]. induction relays as [|r l IH]; [reflexivity|]. exact IH. }
    rewrite R, Q. reflexivity.
  - split; reflexivity.
  - apply lower_hex_host. unfold valid_pubkey in V. apply andb_prop in V. apply V.
  - apply params_encoded.
Qed.
Theorem C116_other_scheme parse_ok server sc w host slash raws pairs : scheme_spelling sc w -> B w <> [] -> B w <> B "bunker" -> forallb host_char' host = true -> Forall2 param raws pairs ->
  connect_args parse_ok server (bunker_text sc host slash raws) = Err /\ is_valid_bunker_url parse_ok (bunker_text sc host slash raws) = false.
Proof.
  intros S1 NE NB H P. assert (Q : seqb (B w) (B "bunker") = false). { destruct (seqb _ _) eqn:E; [|reflexivity]. apply seqb_eq in E. congruence. }
  unfold connect_args, is_valid_bunker_url. rewrite (url_parse_bunker _ _ _ _ _ _ S1 NE H P). cbn [hu_scheme hu_query hu_host]. rewrite Q. split; [|reflexivity]. destruct (B w) as [|x r]; [congruence|]. reflexivity.
Qed.
(** Whatever the text: what IsValidBunkerURL accepts, ConnectBunker does not refuse; and it does not panic. *)
Theorem C116_valid_connects parse_ok server s : is_valid_bunker_url parse_ok s = true -> exists k relays secret, connect_args parse_ok server s = Ok (k, relays, secret) /\ valid_pubkey parse_ok k = true.
Proof.
  unfold is_valid_bunker_url, connect_args. destruct (url_parse s) as [p|]; [|discriminate]. rewrite !andb_true_iff. intros [[S1 V] _]. rewrite S1. apply seqb_eq in S1. rewrite S1. change (nonempty (B "bunker")) with true. cbn [negb obind fst snd]. rewrite V. eauto.
Qed.
Theorem C116_no_crash parse_ok server s : connect_args parse_ok server s <> Panic.
Proof.
  unfold connect_args. destruct (url_parse s) as [p|]; [|discriminate]. destruct (negb (nonempty (hu_scheme p))).
  - unfold query_well_known, fetch, parse_identifier. destruct (accept nip05_regex s); [|discriminate]. destruct (groups s) as [n d]. cbn [obind]. destruct (server _) as [r|]; [|discriminate]. cbn [obind fst snd]. destruct (wk_names r _) as [pk|]; [|discriminate]. cbn [obind fst snd]. destruct (valid_pubkey parse_ok pk); discriminate.
  - destruct (seqb (hu_scheme p) (B "bunker")); [|discriminate]. cbn [obind fst snd]. destruct (valid_pubkey parse_ok _); discriminate.
Qed.
(** IsValidBunkerURL, exactly, on urls whose parameters are written by url.Values: some name must end in "relay". *)
Theorem C116_valid_exactly parse_ok sc host slash pairs : scheme_spelling sc "bunker" -> forallb host_char' host = true ->
  is_valid_bunker_url parse_ok (bunker_text sc host slash (map encoded pairs)) = true <-> valid_pubkey parse_ok host = true /\ exists name value, In (name ++ B "relay", value) pairs.
Proof.
  intros S1 H. unfold is_valid_bunker_url. rewrite (url_parse_bunker _ _ _ _ _ _ S1 ltac:(discriminate) H (params_encoded pairs)). cbn [hu_scheme hu_query hu_host]. rewrite seqb_refl, raw_query_encoded, contains_query. cbn [andb]. rewrite andb_true_iff, existsb_exists. split; intros [V G]; (split; [exact V|]).
  - destruct G as ([k v] & I1 & E). apply has_suffix_spec in E as [a E]. cbn [fst] in E. subst k. exists a, v. exact I1.
  - destruct G as (a & v & I1). exists (a ++ B "relay", v). split; [exact I1|]. apply has_suffix_spec. exists a. reflexivity.
Qed.
(** So it tells whether there is a relay when no other name ends like that. *)
Theorem C116_valid_has_relay_partial parse_ok server sc host slash pairs : scheme_spelling sc "bunker" -> forallb host_char' host = true -> (forall name value, In (name ++ B "relay", value) pairs -> name = []) ->
  is_valid_bunker_url parse_ok (bunker_text sc host slash (map encoded pairs)) = true <-> exists relays secret, connect_args parse_ok server (bunker_text sc host slash (map encoded pairs)) = Ok (host, relays, secret) /\ relays <> [].
Proof.
  intros S1 H O. rewrite (C116_valid_exactly _ _ _ _ _ S1 H), (C116_reads _ _ _ _ _ _ _ S1 H (params_encoded pairs)). split.
  - intros [V (n & v & I1)]. rewrite V. eexists. eexists. split; [reflexivity|]. pose proof (O n v I1) as N. subst n. cbn [app] in I1. intro E. assert (I2 : In v (named (B "relay") pairs)); [|rewrite E in I2; destruct I2]. unfold named. apply in_map_iff. exists (B "relay", v). split; [reflexivity|]. apply filter_In. split; [exact I1|apply seqb_refl].
  - intros (rl & sec & E & NE). destruct (valid_pubkey parse_ok host); [|discriminate]. split; [reflexivity|]. assert (E2 : rl = named (B "relay") pairs) by congruence. subst rl. destruct (named (B "relay") pairs) as [|v l] eqn:N; [congruence|]. assert (I1 : In v (named (B "relay") pairs)) by (rewrite N; left; reflexivity). unfold named in I1. apply in_map_iff in I1 as ([k v'] & <- & I1). apply filter_In in I1 as [I1 Q]. apply seqb_eq in Q. cbn [fst] in Q. subst k. exists [], v'. exact I1.
Qed.
(** Otherwise it accepts a url without a relay. *)
Definition alice_key : str := B "79be667ef9dcbbac55a06295ce870b07029bfcdb2dce28d959f2815b16f81798".
Theorem C116_valid_no_relay_refuted : exists s, is_valid_bunker_url (fun _ => true) s = true /\ connect_args (fun _ => true) (fun _ => None) s = Ok (alice_key, [], []).
Proof. exists (B "bunker://" ++ alice_key ++ B "?norelay=wss://relay.example.com"). split; vm_compute; reflexivity. Qed.
Example C116_reads_example : connect_args (fun b => length b =? 32) (fun _ => None) (B "bunker://" ++ alice_key ++ B "?relay=wss://relay.example.com&relay=wss%3a%2F%2fother.example.com/a%20b&secret=x+y%2B") =
  Ok (alice_key, [B "wss://relay.example.com"; B "wss://other.example.com/a b"], B "x y+").
Proof. vm_compute. reflexivity. Qed.
Example C116_reads_case : let raws := [(B "relay", B "wss%3a//x.org?a=b"); (B "secret", B "x+y"); (B "relay", B "")] in let pairs := [(B "relay", B "wss://x.org?a=b"); (B "secret", B "x y"); (B "relay", [])] in
  scheme_spelling (B "BUNKer") "bunker" /\ forallb host_char' alice_key = true /\ (forall r p, In (r, p) (combine raws pairs) -> url_unescape MQuery (snd r) = Some (snd p)) /\ bunker_text (B "BUNKer") alice_key true raws = B "BUNKer://" ++ alice_key ++ B "/?relay=wss%3a//x.org?a=b&secret=x+y&relay=" /\
  connect_args (fun b => length b =? 32) (fun _ => None) (bunker_text (B "BUNKer") alice_key true raws) = Ok (alice_key, [B "wss://x.org?a=b"; []], B "x y").
Proof. cbv zeta. split; [split; reflexivity|]. split; [reflexivity|]. split; [intros r p [H|[H|[H|[]]]]; injection H as <- <-; reflexivity|]. split; vm_compute; reflexivity. Qed.
Example C116_scheme_example : connect_args (fun _ => true) (fun _ => None) (B "nostrconnect://" ++ alice_key ++ B "?relay=wss://x.org") = Err /\ is_valid_bunker_url (fun _ => true) (B "bunker://" ++ alice_key ++ B "?relay=wss://x.org") = true.
Proof. split; vm_compute; reflexivity. Qed.
Print Assumptions C116_reads.
Print Assumptions C116_round_trip.
Print Assumptions C116_other_scheme.
Print Assumptions C116_valid_connects.
Print Assumptions C116_no_crash.
Print Assumptions C116_valid_exactly.
Print Assumptions C116_valid_has_relay_partial.
Print Assumptions C116_valid_no_relay_refuted.

(** ** An internet identifier in place of a url *)
Lemma ident_char s n d : identifies s n d -> forallb (fun x => name_class x || is_at x) s = true.
Proof.
  intro H. assert (A : forall t : str, incl t (alnum ++ B ".+-") -> forallb (fun x => name_class x || is_at x) t = true).
  { intros t T. apply name_class_in in T. eapply forallb_impl; [|exact T]. intros x X. rewrite X. reflexivity. }
  assert (D : domain_text d -> forallb (fun x => name_class x || is_at x) d = true).
  { clear H. intros (ls & _ & F & ->). apply A. induction F as [|l ls (_ & Hl) F IH]; [intros x []|]. assert (HL : incl l (alnum ++ B ".+-")). { intros x Hx. specialize (Hl x Hx). apply in_app_iff in Hl. apply in_app_iff. destruct Hl as [Hl|Hl]; [left; exact Hl|right; right; right; destruct Hl as [Hl|[]]; left; exact Hl]. }
    cbn [dotted]. destruct ls as [|l' ls']; [exact HL|]. apply incl_app; [exact HL|]. apply incl_app; [|exact IH]. intros x [<-|[]]. apply in_app_iff. right. left. reflexivity. }
  destruct H as [HD [[[_ N] ->]|[-> _]]]; [|apply D, HD]. rewrite !forallb_app, (A _ N), (D HD). reflexivity.
Qed.
Lemma ident_no_scheme s : forallb (fun x => name_class x || is_at x) s = true -> forall first acc, scheme_loop first acc s = Some None.
Proof.
  induction s as [|x s IH]; intros H first acc; [reflexivity|]. cbn [forallb] in H. apply andb_prop in H as [HX H]. cbn [scheme_loop].
  destruct (is_letter x); [apply IH, H|]. destruct (is_digit x || one_of "+-." x); [destruct first; [reflexivity|apply IH, H]|]. destruct (ceqb x ":"%char) eqn:E; [|reflexivity]. apply ceqb_eq in E. subst x. discriminate HX.
Qed.
Lemma ident_url s n d : identifies s n d -> exists p, url_parse s = Some p /\ hu_scheme p = [] /\ hu_query p = [].
Proof.
  intro H. pose proof (ident_char s n d H) as C. set (f := fun x => name_class x || is_at x) in *.
  assert (W : forall c, f c = false -> without c s = true) by (intros c E; apply (without_chars f); assumption).
  unfold url_parse, cut_or. rewrite cut_sep_without by (apply W; reflexivity). change (set_text MFragment []) with (Some (@nil ascii, @nil ascii)).
  assert (PB : exists p, parse_before_fragment s = Some p /\ hu_scheme p = [] /\ hu_query p = []).
  { unfold parse_before_fragment. assert (NC : existsb is_ctl s = false). { destruct (existsb is_ctl s) eqn:E; [|reflexivity]. apply existsb_exists in E as (x & Hx & E). rewrite forallb_forall in C. specialize (C x Hx). assert (G : negb (is_ctl x) = true) by (revert C; apply (char_impl f (fun x => negb (is_ctl x))); vm_compute; reflexivity). rewrite E in G. discriminate. }
    rewrite NC. destruct (seqb s (B "*")); [eexists; split; [reflexivity|split; reflexivity]|]. unfold get_scheme. rewrite (ident_no_scheme s C). cbn [map]. rewrite last_is_without by (apply W; reflexivity). cbn [andb]. unfold cut_or. rewrite !cut_sep_without by (apply W; reflexivity). cbn [fst].
    assert (NS : has_prefix s (B "/") = false). { destruct (has_prefix s (B "/")) eqn:E; [|reflexivity]. apply has_prefix_spec in E as [t ->]. discriminate C. }
    rewrite NS. cbn [negb andb]. assert (NCol : existsb (ceqb ":"%char) s = false). { destruct (existsb (ceqb ":"%char) s) eqn:E; [|reflexivity]. apply existsb_exists in E as (x & Hx & E). apply ceqb_eq in E. subst x. rewrite forallb_forall in C. specialize (C _ Hx). discriminate C. }
    rewrite NCol. assert (NS2 : has_prefix s (B "//") = false). { destruct (has_prefix s (B "//")) eqn:E; [|reflexivity]. apply has_prefix_spec in E as [t ->]. discriminate C. }
    rewrite NS2, !andb_false_r. change (parse_host []) with (Some (@nil ascii)). unfold set_text. rewrite (unescape_plain MPath s).
    - eexists. split; [reflexivity|]. split; reflexivity.
    - eapply forallb_impl; [|exact C]. apply (char_impl f). vm_compute. reflexivity. }
  destruct PB as (p & -> & A1 & A2). eexists. split; [reflexivity|]. split; assumption.
Qed.
(** The server of the domain is asked for the name; the key is the one it tells, the relays those of its nip46 list, the secret is empty. *)
Theorem C116_identifier parse_ok server s n d : identifies s n d ->
  connect_args parse_ok server s = match server (address_of n d) with
    | None => Err
    | Some r => match wk_names r n with
        | None => Err
        | Some pk => if valid_pubkey parse_ok pk then Ok (pk, match wk_nip46 r pk with Some l => l | None => [] end, []) else Err
        end
    end.
Proof.
  intro H. destruct (ident_url s n d H) as (p & E & S1 & Q). unfold connect_args. rewrite E, S1, Q. change (values_at (B "secret") (query_values [])) with (@nil str). cbn [nonempty negb first_or_empty]. unfold query_well_known, fetch. rewrite (parse_of s n d H). cbn [obind].
  change (well_known d n) with (address_of n d). destruct (server (address_of n d)) as [r|]; [|reflexivity]. cbn [obind fst snd]. destruct (wk_names r n) as [pk|]; [|reflexivity]. reflexivity.
Qed.
(** A name without a nip46 list is not refused, though there is a check for it. *)
Theorem C116_identifier_no_list_refuted parse_ok server s n d r pk : identifies s n d -> server (address_of n d) = Some r -> wk_names r n = Some pk -> wk_nip46 r pk = None -> valid_pubkey parse_ok pk = true ->
  connect_args parse_ok server s = Ok (pk, [], []).
Proof. intros H A N M V. rewrite (C116_identifier _ _ _ _ _ H), A, N, M, V. reflexivity. Qed.
Definition one_server (url : str) : option well_known_response :=
  if seqb url (B "https://example.com/.well-known/nostr.json?name=bob") then Some (mkWK (fun n => if seqb n (B "bob") then Some alice_key else None) (fun _ => None) (fun _ => None)) else None.
Example C116_identifier_example : connect_args (fun _ => true) one_server (B "bob@example.com") = Ok (alice_key, [], []) /\ connect_args (fun _ => true) one_server (B "carol@example.com") = Err.
Proof. split; vm_compute; reflexivity. Qed.
Print Assumptions C116_identifier.
Print Assumptions C116_identifier_no_list_refuted.

(** ** Without relays *)
Ltac rpc_cases H := cbn [step] in H; repeat (match type of H with
  | context [match nth_error ?l ?i with _ => _ end] => let c := fresh "c" in let E := fresh "EN" in destruct (nth_error l i) as [c|] eqn:E; [|discriminate H]
  | context [match cl_phase ?c with _ => _ end] => let E := fresh "EP" in destruct (cl_phase c) eqn:E; try discriminate H
  | context [match cl_silent ?c with _ => _ end] => let E := fresh "ES" in destruct (cl_silent c) eqn:E; try discriminate H
  | context [match s_reader ?s with _ => _ end] => let E := fresh "ER" in destruct (s_reader s) eqn:E; try discriminate H
  | context [match find_call ?a ?b with _ => _ end] => let E := fresh "EF" in destruct (find_call a b) eqn:E; try discriminate H
  | context [if ?b then _ else _] => let E := fresh "EB" in destruct b eqn:E; try discriminate H
  end); try discriminate H; (injection H as <-).
Lemma silent_step prefix a s s' : (forall i c, nth_error (s_calls s) i = Some c -> cl_published c = 0 -> match cl_phase c with PStart | PSelect1 => cl_result c = None | PSelect2 => False | _ => cl_result c = Some Err end) ->
  step prefix a s = Some s' -> (forall i c, nth_error (s_calls s') i = Some c -> cl_published c = 0 -> match cl_phase c with PStart | PSelect1 => cl_result c = None | PSelect2 => False | _ => cl_result c = Some Err end).
Proof.
  intros G H j x. destruct a as [relays|i|i|i|i|a| | |i|i].
  - rpc_cases H. cbn [s_calls]. intros N. apply nth_snoc in N. destruct N as [N|[-> ->]]; [apply (G j x N)|reflexivity].
  - rpc_cases H. cbn [put s_calls]. intros N. apply nth_upd in N. destruct N as [[<- ->]|[_ N]]; [|apply (G j x N)]. cbn [set_phase cl_published cl_phase cl_result]. intro P. specialize (G _ _ EN P). rewrite EP in G. exact G.
  - rpc_cases H; cbn [put s_calls]; intros N; (apply nth_upd in N; destruct N as [[<- ->]|[_ N]]; [discriminate|apply (G j x N)]).
  - rpc_cases H; cbn [put s_calls]; intros N; (apply nth_upd in N; destruct N as [[<- ->]|[_ N]]; [|apply (G j x N)]). cbn [cl_published cl_phase cl_result]. intro P. exact (G _ _ EN P).
  - rpc_cases H; cbn [put s_calls]; intros N; (apply nth_upd in N; destruct N as [[<- ->]|[_ N]]; [|apply (G j x N)]); reflexivity.
  - rpc_cases H; cbn [set_reader s_calls]; apply G.
  - rpc_cases H. cbn [put set_reader s_calls]. intros N. apply nth_upd in N. destruct N as [[<- ->]|[_ N]]; [|apply (G j x N)]. cbn [cl_published]. intro P. specialize (G _ _ EN P). rewrite EP in G. destruct G.
  - rpc_cases H; cbn [set_reader s_calls]; apply G.
  - rpc_cases H. cbn [put s_calls]. intros N. apply nth_upd in N. destruct N as [[<- ->]|[_ N]]; [|apply (G j x N)]. cbn [set_phase cl_published cl_phase cl_result]. intro P. specialize (G _ _ EN P). rewrite EP in G. exact G.
  - rpc_cases H. cbn [put s_calls]. intros N. apply nth_upd in N. destruct N as [[<- ->]|[_ N]]; [|apply (G j x N)]. cbn [set_phase cl_published cl_phase cl_result]. intro P. specialize (G _ _ EN P). rewrite EP in G. exact G.
Qed.
Lemma mute_step prefix a s s' i c : nth_error (s_calls s) i = Some c -> cl_silent c = 0 -> cl_published c = 0 -> step prefix a s = Some s' -> exists c', nth_error (s_calls s') i = Some c' /\ cl_silent c' = 0 /\ cl_published c' = 0.
Proof.
  intros N A Q H. assert (U : forall j c1 c2, nth_error (s_calls s) j = Some c1 -> cl_silent c2 = cl_silent c1 -> cl_published c2 = cl_published c1 -> exists c', nth_error (upd (s_calls s) j c2) i = Some c' /\ cl_silent c' = 0 /\ cl_published c' = 0).
  { intros j c1 c2 N1 X Y. destruct (Nat.eq_dec j i) as [->|NE]; [exists c2; rewrite nth_upd_same by (eapply nth_lt; eassumption)|exists c; rewrite nth_upd_other by assumption; auto]. assert (c1 = c) by congruence. subst c1. split; [reflexivity|]. split; congruence. }
  destruct a as [relays|k|k|k|k|a| | |k|k].
  - rpc_cases H. cbn [s_calls]. exists c. split; [apply nth_snoc_old, N|auto].
  - rpc_cases H. cbn [put s_calls]. eapply U; [exact EN|reflexivity|reflexivity].
  - rpc_cases H; cbn [put s_calls]; (destruct (Nat.eq_dec k i) as [->|NE]; [exfalso; assert (c0 = c) by congruence; subst; congruence|exists c; rewrite nth_upd_other by assumption; auto]).
  - rpc_cases H. cbn [put s_calls]. eapply U; [exact EN|reflexivity|reflexivity].
  - rpc_cases H; cbn [put s_calls]; (eapply U; [exact EN|reflexivity|reflexivity]).
  - rpc_cases H; cbn [set_reader s_calls]; eauto.
  - rpc_cases H. cbn [put set_reader s_calls]. eapply U; [exact EN|reflexivity|reflexivity].
  - rpc_cases H; cbn [set_reader s_calls]; eauto.
  - rpc_cases H. cbn [put s_calls]. eapply U; [exact EN|reflexivity|reflexivity].
  - rpc_cases H. cbn [put s_calls]. eapply U; [exact EN|reflexivity|reflexivity].
Qed.
(** A call made without relays does not succeed, whatever the other calls and the answers are. *)
Theorem C116_no_relays_never prefix before s1 after s : exec (step prefix) before init = Some s1 -> exec (step prefix) (before ++ ACall 0 :: after) init = Some s ->
  exists c, nth_error (s_calls s) (length (s_calls s1)) = Some c /\ cl_published c = 0 /\ (cl_result c = None \/ cl_result c = Some Err).
Proof.
  intros H1 H. rewrite exec_app, H1 in H. cbn [exec step] in H. set (s2 := mkSt _ _ _ _ _) in H.
  assert (M : forall acts s2 s, exec (step prefix) acts s2 = Some s -> forall i c, nth_error (s_calls s2) i = Some c -> cl_silent c = 0 -> cl_published c = 0 -> exists c', nth_error (s_calls s) i = Some c' /\ cl_silent c' = 0 /\ cl_published c' = 0).
  { clear. induction acts as [|a acts IH]; intros s2 s H i c N A P; [injection H as <-; eauto|]. cbn [exec] in H. destruct (step prefix a s2) as [s3|] eqn:E; [|discriminate]. destruct (mute_step prefix a s2 s3 i c N A P E) as (c' & N' & A' & P'). exact (IH s3 s H i c' N' A' P'). }
  destruct (M after s2 s H (length (s_calls s1)) (mkCall (rpc_id prefix (length (s_calls s1))) PStart 0 0 false None)) as (c & N & A & P); [unfold s2; cbn [s_calls]; rewrite nth_error_app2, Nat.sub_diag by lia; reflexivity|reflexivity|reflexivity|]. exists c. split; [exact N|]. split; [exact P|].
  assert (G : forall i c, nth_error (s_calls s) i = Some c -> cl_published c = 0 -> match cl_phase c with PStart | PSelect1 => cl_result c = None | PSelect2 => False | _ => cl_result c = Some Err end).
  { apply (invariant (step prefix) (fun s => forall i c, nth_error (s_calls s) i = Some c -> cl_published c = 0 -> match cl_phase c with PStart | PSelect1 => cl_result c = None | PSelect2 => False | _ => cl_result c = Some Err end) init).
    - intros [|i] c0 N0; discriminate N0.
    - intros a s3 s4 G E. exact (silent_step prefix a s3 s4 G E).
    - exists (before ++ ACall 0 :: after). rewrite exec_app, H1. exact H. }
  specialize (G _ _ N P). destruct (cl_phase c); auto. destruct G.
Qed.
Example C116_no_relays_example : match exec (step (B "gn-1")) ([ACall 1; AEnter 0] ++ ACall 0 :: [AEnter 1; AConnected 0; ACancel 1; AGiveUp 1]) init with Some s => map cl_result (s_calls s) = [None; Some Err] | None => False end.
Proof. vm_compute. reflexivity. Qed.
Print Assumptions C116_no_relays_never.

(** ** From the url to the signer and back *)
Lemma own_key_ok c valid (L : lawful c valid) sk pk : valid sk -> public_key c sk = Ok pk -> pub_ok c pk = true.
Proof.
  intros V P. unfold public_key, get_public_key in P. destruct (hex_decode sk) as [s|] eqn:D; [|discriminate]. assert (E : pk = hex_encode (skipn 1 (p_pub c s))) by congruence. subst pk.
  destruct (l_signs c valid L sk s (repeat "h"%char 32) V D eq_refl) as [sg SG]. destruct (l_sig c valid L _ _ _ SG) as (p & sig & PP & _). unfold pub_ok, valid_pubkey. rewrite (hex_prefix_decode _ _ (hex_decode_encode _)), PP, andb_true_r. apply hex_encode_lower.
Qed.
(** The url of a signer with one key leads to that signer: it reads the request with the secret of the url, its answer is "ack" if it agrees to the secret and an error otherwise, and the client reads this answer. *)
Theorem C116_connects c valid (L : lawful c valid) dec_req enc_req dec_resp enc_resp st h d sk pc ps sc slash raws pairs id now nonce :
  (forall r, dec_req (enc_req r) = Some r) -> (forall r, dec_resp (enc_resp r) = Some r) ->
  valid sk -> valid (st_sk st) -> public_key c sk = Ok pc -> public_key c (st_sk st) = Ok ps -> length nonce = 32 -> length (d_reply d) = 32 ->
  scheme_spelling sc "bunker" -> Forall2 param raws pairs ->
  let secret := match named (B "secret") pairs with v :: _ => v | [] => [] end in
  let agreed := match st_auth st with Some f => f true pc secret | None => true end in
  (1 <= len (enc_req (mkReq id (B "connect") [ps; secret])) <= 65535)%N -> (1 <= len (enc_resp (mkResp id false (B "ack"))) <= 65535)%N -> (1 <= len (enc_resp (mkResp id true [])) <= 65535)%N ->
  exists b e ev, connect_event c enc_req (fun x => match p_parse_pk c x with Some _ => true | None => false end) (fun _ => None) sk (bunker_text sc ps slash raws) id now nonce = Ok (b, e) /\
    bc_relays b = named (B "relay") pairs /\ ev_kind e = 24133%Z /\ ev_tags e = [[B "p"; ps]] /\ ev_pubkey e = pc /\ sig_ok c e = Ok true /\
    fst (static_handle c dec_req enc_resp st (static_run c dec_req enc_resp st h) e d) = Ok (mkReq id (B "connect") [ps; secret], (if agreed then mkResp id false (B "ack") else mkResp id true []), ev) /\
    client_read c dec_resp b ev = Ok (Some (if agreed then mkResp id false (B "ack") else mkResp id true [])).
Proof.
  intros RQ RS VC VS PC PS LN LD S1 HP secret agreed LQ LR1 LR2. pose proof (own_key_ok c valid L _ _ VS PS) as OK. set (pok := fun x => match p_parse_pk c x with Some _ => true | None => false end). unfold pub_ok in OK. fold pok in OK.
  assert (HH : forallb host_char' ps = true) by (apply lower_hex_host; unfold valid_pubkey in OK; apply andb_prop in OK; apply OK).
  destruct (conv_pair c valid L sk (st_sk st) pc ps VC VS PC PS) as (k & K1 & K2). destruct (shared_pair c valid L sk (st_sk st) pc ps VC VS PC PS) as (ks & K3 & K4 & _).
  set (b := mkBC sk pc ps (named (B "relay") pairs) k ks).
  assert (NB : new_bunker c sk ps (named (B "relay") pairs) = Ok b) by (unfold new_bunker; rewrite PC, K3, K1; reflexivity).
  set (req := mkReq id (B "connect") [ps; secret]). destruct (enc44_ok c (enc_req req) k nonce LQ) as [ct EC].
  destruct (sign_ok c valid L sk (mkEvent [] [] now 24133 [[B "p"; ps]] ct []) VC) as [e SE].
  destruct (signed c valid L _ _ _ SE) as (G1 & G2 & G3 & G4 & G5 & G6 & G7). cbn [ev_content ev_kind ev_tags] in G4, G5, G7. assert (PE : ev_pubkey e = pc) by congruence.
  assert (LR : forall s result err refused, own c (st_sk st) pc s -> static_answer c st s req d = Ok (AAnswer result err) -> (1 <= len (enc_resp (reply_of (rq_id req) result refused)) <= 65535)%N).
  { intros s result err refused _ HA. unfold static_answer in HA. cbn [req rq_method] in HA. rewrite seqb_refl in HA. assert (result = B "ack") by congruence. subst result. destruct refused; assumption. }
  destruct (C66_static_answers c valid L dec_req enc_resp st h e d sk pc ps req nonce (enc_req req) (RQ req) LR VC VS PC PS G5 PE LN) as [(resp & ev & HD)|(s & _ & [HA|HA])].
  { unfold enc_to. rewrite K1. cbn [obind]. rewrite EC, G4. reflexivity. }
  2: { unfold static_answer in HA. cbn [req rq_method] in HA. rewrite seqb_refl in HA. discriminate. }
  2: { unfold static_answer in HA. cbn [req rq_method] in HA. rewrite seqb_refl in HA. discriminate. }
  assert (HR : resp = if agreed then mkResp id false (B "ack") else mkResp id true []).
  { apply static_handle_cases in HD as HC; [|apply static_run_table]. destruct HC as (_ & s & result & err & ct' & _ & _ & HA & HC & _). unfold static_answer in HA. cbn [req rq_method] in HA. rewrite seqb_refl in HA. assert (result = B "ack" /\ err = false) as [-> ->] by (split; congruence).
    rewrite HC. unfold agreed. destruct (st_auth st) as [f|]; [|reflexivity]. cbn [negb andb orb]. change (static_harmless req) with true. change (static_secret req) with secret. rewrite PE. destruct (f true pc secret); reflexivity. }
  assert (RE : rpc_event c enc_req b id (B "connect") [ps; secret] now nonce = Ok e). { unfold rpc_event. cbn [bc_conv bc_target bc_sk b]. change (obind (encrypt44 c (enc_req req) k nonce) (fun content => sign_with c sk (mkEvent [] [] now 24133 [[B "p"; ps]] content [])) = Ok e). rewrite EC. cbn [obind]. exact SE. }
  exists b, e, ev. split; [|split; [reflexivity|split; [exact G5|split; [exact G7|split; [exact PE|split; [exact G3|split]]]]]].
  - unfold connect_event. fold pok. rewrite (C116_reads pok _ _ _ _ _ _ S1 HH HP), OK. cbn [obind]. rewrite NB. cbn [obind]. exact (f_equal (fun o => obind o (fun e => Ok (b, e))) RE).
  - rewrite HD, HR. reflexivity.
  - assert (PCE : public_key c sk = Ok (ev_pubkey e)) by (rewrite PE; exact PC). destruct (C66_static_reply c valid L dec_req enc_resp st h e d req resp ev sk VC VS PCE LD HD) as (R1 & _ & _ & R4 & _ & R6).
    unfold client_read. rewrite R4. cbn [Z.eqb Pos.eqb negb bc_conv b]. unfold dec_from in R6. assert (PV : ev_pubkey ev = ps) by congruence. rewrite PV, K1 in R6. cbn [obind] in R6. rewrite R6, RS, HR. reflexivity.
Qed.
Print Assumptions C116_connects.
(** An answer in the older encryption is read as well. *)
Definition b64_digit (a : ascii) : bool := match b64_val a with Some _ => true | None => ceqb a "="%char end.
Lemma groups_digits n : forall s t, length s <= n -> b64_groups s = Some t -> forallb b64_digit s = true.
Proof.
  induction n as [|n IH]; intros s t Ls H; [destruct s; [reflexivity|cbn [length] in Ls; lia]|].
  destruct s as [|a [|b [|x [|d r]]]]; [reflexivity|discriminate H..|]. cbn [b64_groups] in H. cbn [forallb]. unfold b64_digit at 1 2 3 4. destruct (b64_val a); [|discriminate]. destruct (b64_val b); [|discriminate]. cbn [andb].
  destruct (b64_val x).
  - destruct (b64_val d).
    + destruct (b64_groups r) eqn:E; [|discriminate]. cbn [andb]. apply (IH r _ ltac:(cbn [length] in Ls; lia) E).
    + destruct (ceqb d "="%char); [|discriminate]. destruct r; [reflexivity|discriminate].
  - destruct (ceqb x "="%char); [|discriminate]. destruct (ceqb d "="%char) eqn:E; [|discriminate]. destruct r; [|discriminate]. destruct (b64_val d); reflexivity.
Qed.
Lemma question_not_b64 a b : b64_decode (a ++ B "?" ++ b) = None.
Proof.
  destruct (b64_decode (a ++ B "?" ++ b)) as [t|] eqn:E; [|reflexivity]. exfalso. unfold b64_decode in E. apply (groups_digits _ _ _ (le_n _)) in E. rewrite !filter_app, !forallb_app in E. apply andb_prop in E. destruct E as [_ E]. apply andb_prop in E. destruct E as [E _]. vm_compute in E. discriminate E.
Qed.
Theorem C116_reads_nip04 c valid (L : lawful c valid) dec_resp enc_resp sk signer_sk pc ps relays resp iv shared text e : (forall r, dec_resp (enc_resp r) = Some r) ->
  valid sk -> valid signer_sk -> public_key c sk = Ok pc -> public_key c signer_sk = Ok ps -> length iv = 16 ->
  p_shared c pc signer_sk = Ok shared -> encrypt04 c (enc_resp resp) shared iv = Ok text -> ev_kind e = 24133%Z -> ev_content e = text ->
  exists b, new_bunker c sk ps relays = Ok b /\ client_read c dec_resp b e = Ok (Some resp).
Proof.
  intros RS VC VS PC PS LI SH EN K CT. destruct (conv_pair c valid L sk signer_sk pc ps VC VS PC PS) as (k & K1 & K2). destruct (shared_pair c valid L sk signer_sk pc ps VC VS PC PS) as (ks & K3 & K4 & KL).
  assert (ks = shared) as -> by congruence. exists (mkBC sk pc ps relays k shared). split; [unfold new_bunker; rewrite PC, K3, K1; reflexivity|].
  unfold client_read. rewrite K, CT. cbn [Z.eqb Pos.eqb negb bc_conv bc_shared]. assert (D : decrypt44 c text k = Err).
  { assert (X : exists a b, text = a ++ B "?" ++ b). { unfold encrypt04, nip04_encrypt in EN. destruct (negb (aes_key shared)); [discriminate|]. cbv zeta in EN. match type of EN with Ok (?p ++ ?q ++ ?r) = _ => exists p, (B "iv=" ++ r); change q with (B "?" ++ B "iv=") in EN end. rewrite <- app_assoc in EN. congruence. }
    destruct X as (a & b & ->). unfold decrypt44, nip44_decrypt. rewrite question_not_b64. repeat match goal with |- context[if ?x then _ else _] => destruct x end; reflexivity. }
  rewrite D. rewrite (round04 c valid L _ _ _ _ KL LI EN), RS. reflexivity.
Qed.
(** What the reader cannot use it passes over: other kinds, text that is not decrypted, answers that cannot be parsed. It never gives up by itself. *)
Theorem C116_reader_skips c dec_resp b e : (ev_kind e <> 24133%Z \/ (decrypt44 c (ev_content e) (bc_conv b) = Err /\ decrypt04 c (ev_content e) (bc_shared b) = Err) -> client_read c dec_resp b e = Ok None) /\ client_read c dec_resp b e <> Err.
Proof.
  unfold client_read. destruct (Z.eqb_spec (ev_kind e) 24133) as [K|K]; cbn [negb].
  - split; [intros [N|[-> ->]]; [congruence|reflexivity]|]. destruct (decrypt44 c (ev_content e) (bc_conv b)); try discriminate. destruct (decrypt04 c (ev_content e) (bc_shared b)); discriminate.
  - split; [reflexivity|discriminate].
Qed.
Print Assumptions C116_reader_skips.
Print Assumptions C116_reads_nip04.

(** ** The key of the conversation *)
(** When the key cannot be computed the error is dropped, and the requests are encrypted with a key of 32 zero bytes, which everyone has. *)
Lemma zero_request c valid (L : lawful c valid) enc_req sk target relays b id method params now nonce e : p_conv c target sk = Err -> new_bunker c sk target relays = Ok b -> length nonce = 32 ->
  rpc_event c enc_req b id method params now nonce = Ok e -> decrypt44 c (ev_content e) (repeat (byte_of 0) 32) = Ok (enc_req (mkReq id method params)).
Proof.
  intros K NB LN H. unfold new_bunker in NB. rewrite K in NB. cbn [or_else] in NB. destruct (or_else [] (public_key c sk)) as [pk| |]; [|discriminate..]. cbn [obind] in NB. destruct (or_else [] (p_shared c target sk)) as [sh| |]; [|discriminate..]. cbn [obind] in NB. assert (E : b = mkBC sk pk target relays zero_key sh) by congruence. subst b.
  unfold rpc_event in H. cbn [bc_conv bc_sk bc_target] in H. destruct (encrypt44 c _ zero_key nonce) as [ct| |] eqn:EC; [|discriminate..]. cbn [obind] in H. destruct (signed c valid L _ _ _ H) as (_ & _ & _ & G4 & _). rewrite G4. cbn [ev_content]. exact (round44 c valid L _ _ _ _ LN EC).
Qed.
(** This happens with a url whose key has one digit too many: ConnectBunker accepts it and publishes the secret. *)
Theorem C116_odd_key_refuted cv tag extract nonce0 tries base v (c := curve_prims cv tag extract nonce0 tries base) (L : lawful c v) enc_req sk k x slash raws pairs id now nonce :
  v sk -> pub_ok c k = true -> length k = 64 -> is_lower_hex_char x = true -> Forall2 param raws pairs -> length nonce = 32 ->
  (1 <= len (enc_req (mkReq id (B "connect") [k ++ [x]; match named (B "secret") pairs with s :: _ => s | [] => [] end])) <= 65535)%N ->
  exists b e, connect_event c enc_req (fun x => match p_parse_pk c x with Some _ => true | None => false end) (fun _ => None) sk (bunker_text (B "bunker") (k ++ [x]) slash raws) id now nonce = Ok (b, e) /\ bc_relays b = named (B "relay") pairs /\
    decrypt44 c (ev_content e) (repeat (byte_of 0) 32) = Ok (enc_req (mkReq id (B "connect") [k ++ [x]; match named (B "secret") pairs with s :: _ => s | [] => [] end])).
Proof.
  intros V K LK X HP LN LQ. pose proof (C66_odd_key_refuted c k x K LK X) as OK. set (pok := fun x => match p_parse_pk c x with Some _ => true | None => false end). unfold pub_ok in OK. fold pok in OK.
  assert (HH : forallb host_char' (k ++ [x]) = true) by (apply lower_hex_host; unfold valid_pubkey in OK; apply andb_prop in OK; apply OK).
  assert (S1 : scheme_spelling (B "bunker") "bunker") by (split; reflexivity).
  assert (D : parse_02 cv (k ++ [x]) = Err). { unfold parse_02. destruct (hex_decode (B "02" ++ k ++ [x])) as [bs|] eqn:E; [|reflexivity]. exfalso. apply hex_decode_len in E. rewrite !app_length in E. cbn [length] in E. change (length (B "02")) with 2 in E. lia. }
  assert (KE : p_conv c (k ++ [x]) sk = Err). { change (conversation_key cv extract (k ++ [x]) sk = Err). unfold conversation_key, shared_secret. destruct (refused_key sk); [reflexivity|]. destruct (hex_decode sk); [|reflexivity]. rewrite D. reflexivity. }
  assert (SE : p_shared c (k ++ [x]) sk = Err). { change (shared_secret cv (k ++ [x]) sk = Err). unfold shared_secret. destruct (hex_decode sk); [|reflexivity]. rewrite D. reflexivity. }
  destruct (l_conv c v L sk sk V V) as (pc & _ & _ & PC & _). set (b := mkBC sk pc (k ++ [x]) (named (B "relay") pairs) zero_key []).
  assert (NB : new_bunker c sk (k ++ [x]) (named (B "relay") pairs) = Ok b) by (unfold new_bunker; rewrite PC, SE, KE; reflexivity).
  set (secret := match named (B "secret") pairs with s :: _ => s | [] => [] end). set (req := mkReq id (B "connect") [k ++ [x]; secret]). destruct (enc44_ok c (enc_req req) zero_key nonce LQ) as [ct EC].
  destruct (sign_ok c v L sk (mkEvent [] [] now 24133 [[B "p"; k ++ [x]]] ct []) V) as [e ES].
  assert (RE : rpc_event c enc_req b id (B "connect") [k ++ [x]; secret] now nonce = Ok e). { unfold rpc_event. cbn [bc_conv bc_target bc_sk b]. change (obind (encrypt44 c (enc_req req) zero_key nonce) (fun content => sign_with c sk (mkEvent [] [] now 24133 [[B "p"; k ++ [x]]] content [])) = Ok e). rewrite EC. cbn [obind]. exact ES. }
  exists b, e. split; [|split; [reflexivity|]].
  - unfold connect_event. fold pok. rewrite (C116_reads pok _ _ _ _ _ _ S1 HH HP), OK. cbn [obind]. rewrite NB. cbn [obind]. exact (f_equal (fun o => obind o (fun e => Ok (b, e))) RE).
  - exact (zero_request c v L enc_req sk (k ++ [x]) (named (B "relay") pairs) b id _ _ now nonce e KE NB LN RE).
Qed.
(** It also happens with a secret key of the client that is not below the order: such a key signs, but GenerateConversationKey refuses it. *)
Theorem C116_client_key_refuted cv tag extract nonce0 tries base v (c := curve_prims cv tag extract nonce0 tries base) (L : lawful c v) enc_req sk target relays b id method params now nonce e :
  refused_key sk = true -> new_bunker c sk target relays = Ok b -> length nonce = 32 -> rpc_event c enc_req b id method params now nonce = Ok e ->
  decrypt44 c (ev_content e) (repeat (byte_of 0) 32) = Ok (enc_req (mkReq id method params)).
Proof.
  intros R. apply (zero_request c v L). change (conversation_key cv extract target sk = Err). unfold conversation_key. rewrite R. reflexivity.
Qed.
(** Then anyone can answer. *)
Theorem C116_forged_refuted c valid (L : lawful c valid) dec_resp enc_resp sk target relays b r ct nonce : (forall r, dec_resp (enc_resp r) = Some r) -> p_conv c target sk = Err -> new_bunker c sk target relays = Ok b -> length nonce = 32 ->
  encrypt44 c (enc_resp r) (repeat (byte_of 0) 32) nonce = Ok ct -> forall from now tags, client_read c dec_resp b (mkEvent [] from now 24133 tags ct []) = Ok (Some r).
Proof.
  intros RS K NB LN EC from now tags. unfold new_bunker in NB. rewrite K in NB. cbn [or_else] in NB. destruct (or_else [] (public_key c sk)) as [pk| |]; [|discriminate..]. cbn [obind] in NB. destruct (or_else [] (p_shared c target sk)) as [sh| |]; [|discriminate..]. cbn [obind] in NB. assert (E : b = mkBC sk pk target relays zero_key sh) by congruence. subst b.
  unfold client_read. cbn [ev_kind ev_content bc_conv Z.eqb Pos.eqb negb]. change (decrypt44 c ct zero_key) with (decrypt44 c ct (repeat (byte_of 0) 32)). rewrite (round44 c valid L _ _ _ _ LN EC). rewrite RS. reflexivity.
Qed.
(** An event with the right content takes the client down, whoever sends it. *)
Theorem C116_reader_crash_refuted : exists ct, forall c dec_resp b e, ev_kind e = 24133%Z -> ev_content e = ct -> client_read c dec_resp b e = Panic.
Proof. destruct C31_nip44_no_crash_refuted as [p HP]. exists p. intros c dec_resp b e HK HE. unfold client_read. rewrite HK, HE. cbn [Z.eqb Pos.eqb negb]. unfold decrypt44. rewrite HP. reflexivity. Qed.
Print Assumptions C116_odd_key_refuted.
Print Assumptions C116_client_key_refuted.
Print Assumptions C116_forged_refuted.
Print Assumptions C116_reader_crash_refuted.
(** Cases that meet the hypotheses. *)
Definition line_req (r : request) : str := rq_id r ++ newline :: rq_method r ++ newline :: concat (map (fun p => p ++ [newline]) (rq_params r)).
Definition tiny_prims : prims := curve_prims tiny_curve demo_tag (fun s => s) (fun _ _ _ => 5%Z) 1 toy.
Example C116_odd_key_case : exists sk k v, lawful (curve_prims demo_curve demo_tag (fun s => s) (fun _ _ _ => 5%Z) 1 toy) v /\ v sk /\ pub_ok (curve_prims demo_curve demo_tag (fun s => s) (fun _ _ _ => 5%Z) 1 toy) k = true /\ length k = 64.
Proof.
  pose proof (C108_demo_laws toy toy_valid toy_lawful) as L. assert (V : good_key secp_n (key_text 3)) by (exists 3%Z; split; [split; vm_compute; congruence|reflexivity]).
  assert (P := C108_public demo_curve (proj1 C108_demo_lawful) 3 ltac:(split; vm_compute; congruence)). exists (key_text 3), (hex_encode (cv_x demo_curve (smul demo_curve 3 (cv_gen demo_curve)))), (good_key secp_n).
  split; [exact L|]. split; [exact V|]. split; [exact (own_key_ok _ _ L _ _ V P)|]. rewrite hex_encode_length, (g_x_len demo_curve (proj1 C108_demo_lawful)). reflexivity.
Qed.
Example C116_odd_key_example : match connect_event tiny_prims line_req (fun x => match p_parse_pk tiny_prims x with Some _ => true | None => false end) (fun _ => None) (key_text 98) (B "bunker://" ++ key_text 40 ++ B "0?relay=wss://x.org&secret=open") (B "gn-1-1") 7 (repeat "n"%char 32) with
  | Ok (b, e) => bc_relays b = [B "wss://x.org"] /\ decrypt44 tiny_prims (ev_content e) (repeat (byte_of 0) 32) = Ok (B "gn-1-1" ++ newline :: B "connect" ++ newline :: key_text 40 ++ B "0" ++ newline :: B "open" ++ [newline])
  | _ => False end.
Proof. vm_compute. split; reflexivity. Qed.
Example C116_client_key_example : let sk := repeat "f"%char 64 in refused_key sk = true /\ match new_bunker tiny_prims sk (key_text 40) [] with
  | Ok b => match rpc_event tiny_prims line_req b (B "gn-1-1") (B "ping") [] 7 (repeat "n"%char 32) with Ok e => decrypt44 tiny_prims (ev_content e) (repeat (byte_of 0) 32) = Ok (B "gn-1-1" ++ newline :: B "ping" ++ [newline]) | _ => False end
  | _ => False end.
Proof. vm_compute. split; reflexivity. Qed.
(** Requests and responses as hexadecimal lines: an encoding that can be undone, for [C116_connects]. *)
Definition enc_lines (l : list str) : str := concat (map (fun x => hex_encode x ++ [newline]) l).
Fixpoint dec_lines (l : list str) : option (list str) := match l with [] => None | [_] => Some [] | x :: r => match hex_decode x, dec_lines r with Some y, Some ys => Some (y :: ys) | _, _ => None end end.
Lemma dec_enc_lines l : dec_lines (split_at newline (enc_lines l)) = Some l.
Proof.
  induction l as [|x l IH]; [reflexivity|]. unfold enc_lines. cbn [map concat]. rewrite <- app_assoc. cbn [app]. fold (enc_lines l). rewrite split_app by (apply (without_chars is_lower_hex_char); [reflexivity|apply hex_encode_lower]).
  cbn [dec_lines]. destruct (split_at newline (enc_lines l)) as [|y r] eqn:E; [discriminate IH|]. rewrite <- E, hex_decode_encode. rewrite E. rewrite IH. reflexivity.
Qed.
Definition wire_req (r : request) : str := enc_lines (rq_id r :: rq_method r :: rq_params r).
Definition read_req (t : str) : option request := match dec_lines (split_at newline t) with Some (i :: m :: ps) => Some (mkReq i m ps) | _ => None end.
Definition wire_resp (r : response) : str := enc_lines [rs_id r; (if rs_error r then B "1" else []); rs_result r].
Definition read_resp (t : str) : option response := match dec_lines (split_at newline t) with Some [i; e; r] => Some (mkResp i (nonempty e) r) | _ => None end.
Example C116_connects_case : (forall r, read_req (wire_req r) = Some r) /\ (forall r, read_resp (wire_resp r) = Some r) /\
  match connect_event toy wire_req (fun _ => true) (fun _ => None) bob (B "bunker://" ++ alice ++ B "?relay=wss://x.org&secret=open") (B "gn-1-1") 7 nonce1 with
  | Ok (b, e) => let st := mkStatic alice (B "{}") (Some (fun _ _ secret => seqb secret (B "open"))) in
      match static_handle toy read_req wire_resp st (mkTable [] []) e draw1 with
      | (Ok (req, resp, ev), _) => rq_params req = [alice; B "open"] /\ resp = mkResp (B "gn-1-1") false (B "ack") /\ client_read toy read_resp b ev = Ok (Some resp)
      | _ => False end
  | _ => False end.
Proof.
  split; [intros [i m ps]; unfold read_req, wire_req; rewrite dec_enc_lines; reflexivity|]. split; [intros [i e r]; unfold read_resp, wire_resp; rewrite dec_enc_lines; destruct e; reflexivity|]. vm_compute. repeat split.
Qed.
