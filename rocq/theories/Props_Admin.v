(** Relay management: C98. Media servers: C100. *)
From Verif Require Import Base EventModel EventProofs TagsModel Nip19Model CipherModel CipherProofs JLexModel JLexProofs JsonEventProofs CryptoModel CryptoProofs AdminModel BlobModel.
Import ListNotations.

(** * C98. Spec: what each method takes. *)
Definition from_json (p : param) : Prop := match p with PStrings _ => False | _ => True end.
Definition reason_is (rest : list param) (r : str) : Prop := match rest with PStr s :: _ => r = s | _ => r = [] end.
Definition plain_methods : list (str * mparams) :=
  [(B "supportedmethods", SupportedMethods); (B "listbannedpubkeys", ListBannedPubKeys); (B "listallowedpubkeys", ListAllowedPubKeys); (B "listeventsneedingmoderation", ListEventsNeedingModeration);
   (B "listbannedevents", ListBannedEvents); (B "listallowedevents", ListAllowedEvents); (B "listdisallowedkinds", ListDisallowedKinds); (B "listallowedkinds", ListAllowedKinds); (B "listblockedips", ListBlockedIPs); (B "stats", Stats)].
Definition key_methods : list (str * (str -> str -> mparams)) := [(B "banpubkey", BanPubKey); (B "allowpubkey", AllowPubKey)].
Definition id_methods : list (str * (str -> str -> mparams)) := [(B "allowevent", AllowEvent); (B "banevent", BanEvent)].
Definition text_methods : list (str * (str -> mparams)) := [(B "changerelayname", ChangeRelayName); (B "changerelaydescription", ChangeRelayDescription); (B "changerelayicon", ChangeRelayIcon)].
Definition kind_methods : list (str * (Z -> mparams)) := [(B "allowkind", AllowKind); (B "disallowkind", DisallowKind)].
Definition ip_methods : list (str * (str -> str -> mparams)) := [(B "blockip", BlockIP); (B "unblockip", UnblockIP)].
Definition admin_methods : list str := [B "grantadmin"; B "revokeadmin"].
Definition role_methods : list (str * (str -> list str -> mparams)) := [(B "grantadmin", GrantAdmin); (B "revokeadmin", RevokeAdmin)].
Section Admin.
Variable parse_ok : str -> bool.
Variable parse_ip : str -> option str.
Variable to_int : Z -> Z.
Inductive asks : str -> list param -> mparams -> Prop :=
| Asks_plain m ps x : In (m, x) plain_methods -> asks m ps x
| Asks_key m f pk rest r : In (m, f) key_methods -> valid_pubkey parse_ok pk = true -> reason_is rest r -> asks m (PStr pk :: rest) (f pk r)
| Asks_id m f id rest r : In (m, f) id_methods -> valid_32byte_hex id = true -> reason_is rest r -> asks m (PStr id :: rest) (f id r)
| Asks_text m f s rest : In (m, f) text_methods -> asks m (PStr s :: rest) (f s)
| Asks_no_text m f p rest : In (m, f) text_methods -> (forall s, p <> PStr s) -> asks m (p :: rest) (f [])
| Asks_kind m f z rest : In (m, f) kind_methods -> asks m (PWhole z :: rest) (f (to_int z))
| Asks_ip m f s ip rest r : In (m, f) ip_methods -> parse_ip s = Some ip -> reason_is rest r -> asks m (PStr s :: rest) (f ip r)
| Asks_no_ip m f p ip rest r : In (m, f) ip_methods -> (forall s, p <> PStr s) -> parse_ip [] = Some ip -> reason_is rest r -> asks m (p :: rest) (f ip r)
(** Only a request built in the program itself holds a []string. *)
| Asks_admin m f pk ms rest : In (m, f) role_methods -> asks m (PStr pk :: PStrings ms :: rest) (f pk ms).
Definition dec := decode_request parse_ok parse_ip to_int.
Ltac step_method H := match type of H with context [if seqb ?m ?k then _ else _] => destruct (seqb_spec m k) as [->|?] end.
Lemma reason_of_is p rest r : reason_of (p :: rest) = r -> reason_is rest r.
Proof. intros <-. destruct rest as [|[]]; reflexivity. Qed.
Lemma reason_is_of p rest r : reason_is rest r -> reason_of (p :: rest) = r.
Proof. destruct rest as [|[]]; cbn; congruence. Qed.
Lemma dec_sound m ps x : dec (mkRequest m ps) = Ok x -> asks m ps x.
Proof.
  intros H. unfold dec, decode_request in H. cbn [rq_method rq_params] in H.
  assert (K : forall f, In (m, f) key_methods -> with_pubkey parse_ok ps f = Ok x -> asks m ps x).
  { intros f I Q. unfold with_pubkey in Q. destruct ps as [|[] rest]; try discriminate. destruct (valid_pubkey parse_ok s) eqn:V; [|discriminate]. match type of Q with Ok ?y = _ => assert (x = y) as -> by congruence end. eapply Asks_key; eauto using reason_of_is. }
  assert (I9 : forall f, In (m, f) id_methods -> with_id ps f = Ok x -> asks m ps x).
  { intros f I Q. unfold with_id in Q. destruct ps as [|[] rest]; try discriminate. destruct (valid_32byte_hex s) eqn:V; [|discriminate]. match type of Q with Ok ?y = _ => assert (x = y) as -> by congruence end. eapply Asks_id; eauto using reason_of_is. }
  assert (T : forall f, In (m, f) text_methods -> with_text ps f = Ok x -> asks m ps x).
  { intros f I Q. unfold with_text in Q. destruct ps as [|p rest]; try discriminate. match type of Q with Ok ?y = _ => assert (x = y) as -> by congruence end. destruct p; cbn [str_or]; [apply Asks_text; exact I| | | |]; (apply Asks_no_text; [exact I|discriminate]). }
  assert (Kd : forall f, In (m, f) kind_methods -> with_kind to_int ps f = Ok x -> asks m ps x).
  { intros f I Q. unfold with_kind in Q. destruct ps as [|[] rest]; try discriminate. match type of Q with Ok ?y = _ => assert (x = y) as -> by congruence end. apply Asks_kind, I. }
  assert (P : forall f, In (m, f) ip_methods -> with_ip parse_ip ps f = Ok x -> asks m ps x).
  { intros f I Q. unfold with_ip in Q. destruct ps as [|p rest]; try discriminate. destruct (parse_ip (str_or p)) as [ip|] eqn:V; [|discriminate]. match type of Q with Ok ?y = _ => assert (x = y) as -> by congruence end.
    destruct p; cbn [str_or] in V; [eapply Asks_ip; eauto using reason_of_is| | | |]; (eapply Asks_no_ip; [exact I|discriminate|exact V|eapply reason_of_is; reflexivity]). }
  assert (Ad : forall f, In (m, f) role_methods -> with_admin ps f = Ok x -> asks m ps x).
  { intros f I Q. unfold with_admin in Q. destruct ps as [|[] [|[] rest]]; try discriminate. match type of Q with Ok ?y = _ => assert (x = y) as -> by congruence end. apply Asks_admin, I. }
  repeat (step_method H; [first [ (match type of H with Ok ?y = _ => assert (x = y) as -> by congruence end; apply Asks_plain; cbn; tauto) | (eapply K; [|exact H]; cbn; tauto) | (eapply I9; [|exact H]; cbn; tauto) | (eapply T; [|exact H]; cbn; tauto) | (eapply Kd; [|exact H]; cbn; tauto) | (eapply P; [|exact H]; cbn; tauto) | (eapply Ad; [|exact H]; cbn; tauto) ]|]). discriminate.
Qed.
Lemma dec_complete m ps x : asks m ps x -> dec (mkRequest m ps) = Ok x.
Proof.
  intro H. destruct H as [m ps x I|m f pk rest r I V R|m f id rest r I V R|m f s rest I|m f p rest I N|m f z rest I|m f s ip rest r I V R|m f p ip rest r I N V R|m f pk ms rest I].
  - cbn [In plain_methods] in I. repeat (destruct I as [I|I]; [injection I as <- <-; vm_compute; reflexivity|]). destruct I.
  - cbn [In key_methods] in I. destruct I as [I|[I|[]]]; injection I as <- <-; unfold dec, decode_request; cbn [rq_method rq_params]; cbn -[reason_of valid_pubkey]; rewrite V, (reason_is_of (PStr pk) rest r R); reflexivity.
  - cbn [In id_methods] in I. destruct I as [I|[I|[]]]; injection I as <- <-; unfold dec, decode_request; cbn [rq_method rq_params]; cbn -[reason_of valid_32byte_hex]; rewrite V, (reason_is_of (PStr id) rest r R); reflexivity.
  - cbn [In text_methods] in I. destruct I as [I|[I|[I|[]]]]; injection I as <- <-; reflexivity.
  - assert (E : str_or p = []) by (destruct p; try reflexivity; exfalso; eapply N; reflexivity). cbn [In text_methods] in I. destruct I as [I|[I|[I|[]]]]; injection I as <- <-; unfold dec, decode_request; cbn [rq_method rq_params]; cbn -[str_or]; rewrite E; reflexivity.
  - cbn [In kind_methods] in I. destruct I as [I|[I|[]]]; injection I as <- <-; reflexivity.
  - cbn [In ip_methods] in I. destruct I as [I|[I|[]]]; injection I as <- <-; unfold dec, decode_request; cbn [rq_method rq_params]; cbn -[reason_of]; rewrite V, (reason_is_of (PStr s) rest r R); reflexivity.
  - assert (E : str_or p = []) by (destruct p; try reflexivity; exfalso; eapply N; reflexivity). cbn [In ip_methods] in I. destruct I as [I|[I|[]]]; injection I as <- <-; unfold dec, decode_request; cbn [rq_method rq_params]; cbn -[reason_of str_or]; rewrite E, V, (reason_is_of p rest r R); reflexivity.
  - cbn [In role_methods] in I. destruct I as [I|[I|[]]]; injection I as <- <-; reflexivity.
Qed.
Theorem C98_decode m ps x : dec (mkRequest m ps) = Ok x <-> asks m ps x.
Proof. split; [apply dec_sound|apply dec_complete]. Qed.
Theorem C98_method r x : dec r = Ok x -> method_name x = rq_method r.
Proof.
  destruct r as [m ps]. intro H. apply dec_sound in H. cbn [rq_method]. destruct H as [m ps x I|m f pk rest r I V R|m f id rest r I V R|m f s rest I|m f p rest I N1|m f z rest I|m f s ip rest r I V R|m f p ip rest r I N1 V R|m f pk ms rest I];
    cbn [In plain_methods key_methods id_methods text_methods kind_methods ip_methods role_methods] in I; repeat (destruct I as [I|I]; [injection I as <- <-; reflexivity|]); destruct I.
Qed.
Theorem C98_no_crash_partial r : ~ In (rq_method r) admin_methods \/ length (rq_params r) < 2 -> dec r <> Panic.
Proof.
  destruct r as [m ps]. cbn [rq_method rq_params]. intros N H. unfold dec, decode_request in H. cbn [rq_method rq_params] in H.
  assert (K : forall f, with_pubkey parse_ok ps f <> Panic) by (intro f; unfold with_pubkey; destruct ps as [|[] rest]; try discriminate; destruct (valid_pubkey parse_ok s); discriminate).
  assert (I9 : forall f, with_id ps f <> Panic) by (intro f; unfold with_id; destruct ps as [|[] rest]; try discriminate; destruct (valid_32byte_hex s); discriminate).
  assert (T : forall f, with_text ps f <> Panic) by (intro f; unfold with_text; destruct ps; discriminate).
  assert (Kd : forall f, with_kind to_int ps f <> Panic) by (intro f; unfold with_kind; destruct ps as [|[] rest]; discriminate).
  assert (P : forall f, with_ip parse_ip ps f <> Panic) by (intro f; unfold with_ip; destruct ps as [|p rest]; try discriminate; destruct (parse_ip _); discriminate).
  assert (A : In m admin_methods -> forall f, with_admin ps f <> Panic) by (intros I f; destruct N as [N|N]; [contradiction|]; unfold with_admin; destruct ps as [|[] [|q rest]]; cbn [length] in N; try lia; discriminate).
  repeat (step_method H; [first [ discriminate H | exact (K _ H) | exact (I9 _ H) | exact (T _ H) | exact (Kd _ H) | exact (P _ H) | (eapply A; [|exact H]; cbn; tauto) ]|]). discriminate.
Qed.
(** False: no request crashes the relay. Any JSON request to grant or revoke with two params does. *)
Theorem C98_admin_refuted m p q rest : In m admin_methods -> from_json p -> from_json q -> dec (mkRequest m (p :: q :: rest)) = Panic.
Proof. intros I _ Q. cbn [In admin_methods] in I. destruct I as [<-|[<-|[]]]; unfold dec, decode_request; cbn [rq_method rq_params]; cbn -[with_admin]; unfold with_admin; destruct p, q; try reflexivity; destruct Q. Qed.
(** Exactly which requests from the wire crash it. *)
Theorem C98_panics_exactly r : Forall from_json (rq_params r) -> (dec r = Panic <-> In (rq_method r) admin_methods /\ 2 <= length (rq_params r)).
Proof.
  intro F. split.
  - intro P. destruct (in_dec str_eq_dec (rq_method r) admin_methods) as [I|N]; [|destruct (C98_no_crash_partial r (or_introl N) P)]. split; [exact I|].
    destruct (Nat.le_gt_cases 2 (length (rq_params r))) as [L|L]; [exact L|]. destruct (C98_no_crash_partial r (or_intror L) P).
  - destruct r as [m [|p [|q rest]]]; cbn [rq_method rq_params length] in *; intros [I L]; try lia. inversion F as [|? ? F1 F2]; subst. inversion F2; subst. apply C98_admin_refuted; assumption.
Qed.
(** A whole kind that fits is read as it is. False: it is a kind. *)
Theorem C98_kind m f z rest : (forall y, (min_int64 <= y <= max_int64)%Z -> to_int y = y) -> In (m, f) kind_methods -> (min_int64 <= z <= max_int64)%Z -> dec (mkRequest m (PWhole z :: rest)) = Ok (f z).
Proof. intros L I R. rewrite <- (L z R) at 2. apply dec_complete, Asks_kind, I. Qed.
Theorem C98_kind_refuted : (forall y, (min_int64 <= y <= max_int64)%Z -> to_int y = y) -> dec (mkRequest (B "allowkind") [PWhole (-1)]) = Ok (AllowKind (-1)).
Proof. intro L. apply (C98_kind (B "allowkind") AllowKind (-1) [] L); [cbn; tauto|]. unfold min_int64, max_int64. lia. Qed.
(** False: a param of the wrong type is refused. *)
Theorem C98_type_refuted : dec (mkRequest (B "changerelayname") [PWhole 5]) = Ok (ChangeRelayName []).
Proof. reflexivity. Qed.
End Admin.
Example C98_applies : dec (fun _ => true) (fun s => Some s) (fun z => z) (mkRequest (B "banpubkey") [PStr (B "ab"); PStr (B "spam")]) = Ok (BanPubKey (B "ab") (B "spam")) /\ dec (fun _ => true) (fun s => Some s) (fun z => z) (mkRequest (B "allowkind") [PFraction]) = Err
  /\ dec (fun _ => true) (fun s => Some s) (fun z => z) (mkRequest (B "grantadmin") [PStr (B "ab"); PStrings [B "stats"]]) = Ok (GrantAdmin (B "ab") [B "stats"]).
Proof. repeat split; vm_compute; reflexivity. Qed.

(** * C100. Spec: what a server makes of an Authorization header. *)
Definition server_reads (h : str) : outcome event :=
  if has_prefix h (B "Nostr ") then match b64_decode (skipn 6 h) with Some j => decode_event j | None => Err end else Err.
Section Blob.
Context (c : prims) (valid : str -> Prop) (L : lawful c valid).
Definition signer (sk : str) (e : event) : option event := match sign_with c sk e with Ok s => Some s | _ => None end.
(** What the holder of the key signed: a kind, these tags, until one minute from now. *)
Definition grants (sk : str) (now1 now2 : Z) (extra : list tag) (h : option str) : Prop :=
  exists t e, h = Some t /\ server_reads t = Ok e /\ public_key c sk = Ok (ev_pubkey e) /\ ev_id e = id_of c e /\ sig_ok c e = Ok true /\ ev_kind e = 24242%Z /\ ev_created_at e = now1 /\ ev_tags e = [B "expiration"; dec_Z (now2 + 60)] :: extra.
Lemma dec_text z : utf8_text (dec_Z z).
Proof. destruct (dec_Z_shape z) as (x & t & -> & Hx & Ht). apply (ascii_text _ (fun a => is_digit a || ceqb a "-"%char)). { intro a. destruct a as [[] [] [] [] [] [] [] []]; vm_compute; intro; try discriminate; reflexivity. } cbn [forallb]. rewrite Hx. cbn [andb]. clear - Ht. induction t as [|y t IH]; [reflexivity|]. cbn [forallb] in *. apply andb_prop in Ht. destruct Ht as [H1 H2]. rewrite H1. exact (IH H2). Qed.
Lemma plain_text s : forallb (fun a => (val a <? 128)%N) s = true -> utf8_text s.
Proof. apply ascii_text. auto. Qed.
Lemma reads_header e : text_event e -> server_reads (B "Nostr " ++ b64_encode (encode_event e)) = Ok e.
Proof. intro T. unfold server_reads. rewrite has_prefix_app. change (skipn 6 (B "Nostr " ++ b64_encode (encode_event e))) with (b64_encode (encode_event e)). rewrite b64_decode_encode. apply event_round_trip, T. Qed.
Lemma header_grants sk now1 now2 extra : valid sk -> int64 now1 -> Forall (Forall utf8_text) extra -> grants sk now1 now2 extra (Some (auth_header (signer sk) now1 now2 extra)).
Proof.
  intros V N T. unfold auth_header, signer. destruct (sign_ok c valid L sk (auth_event now1 now2 extra) V) as [e E]. rewrite E. destruct (signed c valid L _ _ _ E) as (A1 & A2 & A3 & A4 & A5 & A6 & A7).
  assert (TE : text_event e). { apply (signed_text c sk _ _ E); [apply plain_text; reflexivity| |exact N|cbv; intuition discriminate]. cbn [auth_event ev_tags]. constructor; [|exact T]. constructor; [apply plain_text; reflexivity|]. constructor; [apply dec_text|constructor]. }
  eexists _, e. split; [reflexivity|]. split; [apply reads_header, TE|]. repeat split; assumption.
Qed.
Lemma call_grants sk now1 now2 extra server m path body : valid sk -> int64 now1 -> Forall (Forall utf8_text) extra -> grants sk now1 now2 extra (hr_auth (http_call server m path (Some (auth_header (signer sk) now1 now2 extra)) body)).
Proof.
  intros V N T. pose proof (header_grants sk now1 now2 extra V N T) as G. unfold http_call. cbn [hr_auth]. destruct (auth_header (signer sk) now1 now2 extra) as [|x h] eqn:E; [|exact G]. destruct G as (t & e & A & R & _). injection A as <-. discriminate R.
Qed.
Lemma text2 a b : utf8_text a -> utf8_text b -> Forall utf8_text [a; b].
Proof. auto. Qed.
(** The upload commits to the file as it was when it was hashed: what is signed names that hash, and if the file has not changed since then the body is the file. *)
Theorem C100_upload sk server now1 now2 f f2 : valid sk -> int64 now1 ->
  let r := upload_request (signer sk) (p_sha c) server now1 now2 f f2 in
  hr_method r = B "PUT" /\ hr_url r = server ++ B "upload" /\ grants sk now1 now2 [[B "t"; B "upload"]; [B "x"; hex_encode (p_sha c f)]] (hr_auth r) /\
  (f2 = f -> hr_body r = Some f) /\ exists sent rest, hr_body r = Some sent /\ f2 = sent ++ rest /\ length sent <= length f.
Proof.
  intros V N r. unfold r, upload_request. split; [reflexivity|]. split; [reflexivity|]. split; [|split; [intros ->; cbn [http_call hr_body]; rewrite firstn_all; reflexivity|exists (firstn (length f) f2), (skipn (length f) f2); split; [reflexivity|split; [symmetry; apply firstn_skipn|rewrite firstn_length; lia]]]].
  apply call_grants; [exact V|exact N|]. constructor; [apply text2; apply plain_text; reflexivity|]. constructor; [|constructor]. apply text2; [apply plain_text; reflexivity|apply hex_text].
Qed.
(** What each call reports is what a server said, with a status below 300, to the request above; no request is made for a hash or key that is not one. *)
Definition said (serve : http_request -> option (Z * str)) (r : http_request) (b : str) : Prop := exists st, serve r = Some (st, b) /\ (st < 300)%Z.
Lemma answered_said serve r b : answered serve r = Ok b <-> said serve r b.
Proof.
  unfold answered, said. destruct (serve r) as [[st x]|]; [|split; [discriminate|intros (st & Q & _); discriminate]]. destruct (Z.leb_spec 300 st) as [H|H].
  - split; [discriminate|]. intros (st' & Q & Lt). assert (st' = st) by congruence. lia.
  - split; [intro E; exists st; split; [congruence|exact H]|]. intros (st' & Q & Lt). congruence.
Qed.
Theorem C100_reports sk serve server now1 now2 :
  (forall hash, check serve server hash = Ok tt <-> valid_32byte_hex hash = true /\ exists b, said serve (mkHttp (B "HEAD") (server ++ hash) None None) b) /\
  (forall hash, delete (signer sk) serve server now1 now2 hash = Ok tt <-> exists b, said serve (delete_request (signer sk) server now1 now2 hash) b) /\
  (forall parse_desc f f2 d, upload (signer sk) serve (p_sha c) parse_desc server now1 now2 f f2 = Ok d <-> exists b, said serve (upload_request (signer sk) (p_sha c) server now1 now2 f f2) b /\ parse_desc b = Some d) /\
  (forall parse_ok parse_descs pk l, list_blobs (signer sk) serve parse_ok parse_descs server now1 now2 pk = Ok l <-> valid_pubkey parse_ok pk = true /\ exists b, said serve (list_request (signer sk) server now1 now2 pk) b /\ parse_descs b = Some l).
Proof.
  split; [|split; [|split]].
  - intro hash. unfold check. destruct (valid_32byte_hex hash); [|split; [discriminate|intros [Q _]; discriminate]]. change (check_request server hash) with (mkHttp (B "HEAD") (server ++ hash) None None). split.
    + intro H. split; [reflexivity|]. destruct (answered serve _) as [b| |] eqn:E; try discriminate. exists b. apply answered_said. exact E.
    + intros [_ (b & S)]. apply answered_said in S. rewrite S. reflexivity.
  - intro hash. unfold delete. split.
    + intro H. destruct (answered serve _) as [b| |] eqn:E; try discriminate. exists b. apply answered_said. exact E.
    + intros (b & S). apply answered_said in S. rewrite S. reflexivity.
  - intros pd f f2 d. unfold upload. split.
    + intro H. destruct (answered serve _) as [b| |] eqn:E; try discriminate. cbn [obind] in H. exists b. split; [apply answered_said; exact E|]. destruct (pd b); congruence.
    + intros (b & S & P). apply answered_said in S. rewrite S. cbn [obind]. rewrite P. reflexivity.
  - intros po pd pk l. unfold list_blobs. destruct (valid_pubkey po pk); [|split; [discriminate|intros [Q _]; discriminate]]. split.
    + intro H. destruct (answered serve _) as [b| |] eqn:E; try discriminate. cbn [obind] in H. split; [reflexivity|]. exists b. split; [apply answered_said; exact E|]. destruct (pd b); congruence.
    + intros (_ & b & S & P). apply answered_said in S. rewrite S. cbn [obind]. rewrite P. reflexivity.
Qed.
(** Downloading into a file: success means that the file is the body of the answer to the request that [download] makes; the file that was there before is touched only after such an answer. *)
Theorem C100_to_file sk serve server now1 now2 hash old opens got new ok : download_to_file (signer sk) serve server now1 now2 hash old opens got = (new, ok) ->
  (ok = true <-> opens = true /\ got = None /\ exists b, new = Some b /\ download (signer sk) serve server now1 now2 hash = Ok b) /\
  (new <> old -> exists b x, download (signer sk) serve server now1 now2 hash = Ok b /\ exists y, new = Some x /\ b = x ++ y).
Proof.
  unfold download_to_file, download. destruct (valid_32byte_hex hash).
  - destruct (answered serve _) as [b| |].
    + destruct opens; cbn [negb].
      * destruct got as [n|]; intro E; pose proof (f_equal fst E) as E1; pose proof (f_equal snd E) as E2; cbn [fst snd] in E1, E2; rewrite <- E1, <- E2; clear E E1 E2 new ok.
        -- split; [split; [discriminate|intros (_ & Q & _); discriminate]|]. intros _. exists b, (firstn n b). split; [reflexivity|]. exists (skipn n b). split; [reflexivity|]. symmetry. apply firstn_skipn.
        -- split; [split; [intros _; split; [reflexivity|]; split; [reflexivity|]; exists b; split; reflexivity|reflexivity]|]. intros _. exists b, b. split; [reflexivity|]. exists []. split; [reflexivity|]. symmetry. apply app_nil_r.
      * intro E. assert (new = old) as -> by congruence. assert (ok = false) as -> by congruence. split; [split; [discriminate|intros (Q & _); discriminate]|congruence].
    + intro E. assert (new = old) as -> by congruence. assert (ok = false) as -> by congruence. split; [split; [discriminate|intros (_ & _ & b & _ & Q); discriminate]|congruence].
    + intro E. assert (new = old) as -> by congruence. assert (ok = false) as -> by congruence. split; [split; [discriminate|intros (_ & _ & b & _ & Q); discriminate]|congruence].
  - intro E. assert (new = old) as -> by congruence. assert (ok = false) as -> by congruence. split; [split; [discriminate|intros (_ & _ & b & _ & Q); discriminate]|congruence].
Qed.
(** Whatever the server answers, no call crashes. *)
Theorem C100_no_crash sk serve sha parse_desc parse_descs parse_ok server now1 now2 hash f f2 pk :
  check serve server hash <> Panic /\ delete (signer sk) serve server now1 now2 hash <> Panic /\ download (signer sk) serve server now1 now2 hash <> Panic /\
  upload (signer sk) serve sha parse_desc server now1 now2 f f2 <> Panic /\ list_blobs (signer sk) serve parse_ok parse_descs server now1 now2 pk <> Panic.
Proof.
  assert (A : forall r, answered serve r <> Panic) by (intro r; unfold answered; destruct (serve r) as [[st b]|]; [destruct (300 <=? st)%Z|]; discriminate).
  assert (O : forall T r (k : str -> outcome T), (forall b, k b <> Panic) -> obind (answered serve r) k <> Panic) by (intros T r k K; specialize (A r); destruct (answered serve r) as [b| |]; cbn [obind]; [apply K|discriminate|destruct (A eq_refl)]).
  split; [unfold check; destruct (valid_32byte_hex hash); [apply O|]; discriminate|].
  split; [apply O; discriminate|].
  split; [unfold download; destruct (valid_32byte_hex hash); [apply A|discriminate]|].
  split; [apply O; intro b; destruct (parse_desc b); discriminate|].
  unfold list_blobs. destruct (valid_pubkey parse_ok pk); [|discriminate]. apply O. intro b. destruct (parse_descs b); discriminate.
Qed.
(** False: a download that fails leaves the file that was there as it was. *)
Theorem C100_to_file_refuted sk server now1 now2 hash : valid_32byte_hex hash = true -> exists serve old got new,
  download_to_file (signer sk) serve server now1 now2 hash (Some old) true got = (Some new, false) /\ new <> old.
Proof. intro V. exists (fun _ => Some (200%Z, B "new")), (B "precious"), (Some 1), (B "n"). split; [unfold download_to_file; rewrite V; reflexivity|discriminate]. Qed.
(** Deleting, getting and listing ask for what is signed. *)
Theorem C100_delete sk server now1 now2 hash : valid sk -> int64 now1 -> utf8_text hash ->
  let r := delete_request (signer sk) server now1 now2 hash in
  hr_method r = B "DELETE" /\ hr_url r = server ++ hash /\ hr_body r = None /\ grants sk now1 now2 [[B "t"; B "delete"]; [B "x"; hash]] (hr_auth r).
Proof.
  intros V N T r. unfold r, delete_request. repeat (split; [reflexivity|]). apply call_grants; [exact V|exact N|]. constructor; [apply text2; apply plain_text; reflexivity|]. constructor; [|constructor]. apply text2; [apply plain_text; reflexivity|exact T].
Qed.
Theorem C100_list sk server now1 now2 pk : valid sk -> int64 now1 ->
  let r := list_request (signer sk) server now1 now2 pk in
  hr_method r = B "GET" /\ hr_url r = server ++ B "list/" ++ pk /\ grants sk now1 now2 [[B "t"; B "list"]] (hr_auth r).
Proof. intros V N r. unfold r, list_request. repeat (split; [reflexivity|]). apply call_grants; [exact V|exact N|]. constructor; [apply text2; apply plain_text; reflexivity|constructor]. Qed.
Lemma hex32_text h : valid_32byte_hex h = true -> utf8_text h.
Proof. unfold valid_32byte_hex. intro H. apply andb_prop in H. destruct H as [H _]. apply andb_prop in H. destruct H as [H _]. revert H. apply ascii_text. intro a. destruct a as [[] [] [] [] [] [] [] []]; vm_compute; intro; try discriminate; reflexivity. Qed.
Theorem C100_download sk server now1 now2 hash serve b : valid sk -> int64 now1 -> download (signer sk) serve server now1 now2 hash = Ok b ->
  valid_32byte_hex hash = true /\ exists r st, hr_method r = B "GET" /\ hr_url r = server ++ B "/" ++ hash /\ grants sk now1 now2 [[B "t"; B "get"]; [B "x"; hash]] (hr_auth r) /\ serve r = Some (st, b) /\ (st < 300)%Z.
Proof.
  intros V N. unfold download. destruct (valid_32byte_hex hash) eqn:H; [|discriminate]. unfold answered. destruct (serve _) as [[st body]|] eqn:S; [|discriminate]. destruct (Z.leb_spec 300 st); [discriminate|]. intro E. assert (body = b) as -> by congruence. split; [reflexivity|].
  eexists _, st. split; [|split; [|split; [|split; [exact S|assumption]]]]; try reflexivity. cbn [download_request hr_auth]. apply header_grants; [exact V|exact N|]. constructor; [apply text2; apply plain_text; reflexivity|]. constructor; [|constructor]. apply text2; [apply plain_text; reflexivity|apply hex32_text, H].
Qed.
(** Two requests that were signed for different ends have different headers: a grant to get is no grant to delete, and a grant for one file is none for another. *)
Theorem C100_grant_once sk now1 now2 now1' now2' extra extra' h : grants sk now1 now2 extra h -> grants sk now1' now2' extra' h -> extra = extra' /\ now1 = now1'.
Proof. intros (t & e & -> & R & _ & _ & _ & _ & N & T) (t' & e' & E & R' & _ & _ & _ & _ & N' & T'). assert (t' = t) as -> by congruence. assert (e' = e) as -> by congruence. rewrite T in T'. split; congruence. Qed.
(** False: a file that is downloaded is the one asked for. What the server sends is not hashed. *)
Theorem C100_download_refuted sk server now1 now2 hash b : valid_32byte_hex hash = true -> download (signer sk) (fun _ => Some (200%Z, b)) server now1 now2 hash = Ok b.
Proof. intro H. unfold download. rewrite H. reflexivity. Qed.
(** False: the body is what was hashed, when the file changes in between. *)
Theorem C100_changed_refuted sk server now1 now2 : exists f1 f2, hr_body (upload_request (signer sk) (p_sha c) server now1 now2 f1 f2) <> Some f1.
Proof. exists (B "ab"), (B "cd"). discriminate. Qed.
(** False: the descriptor that comes back describes the file. *)
Theorem C100_descriptor_refuted sk server now1 now2 f d parse_desc : parse_desc (B "x") = Some d -> upload (signer sk) (fun _ => Some (200%Z, B "x")) (p_sha c) parse_desc server now1 now2 f f = Ok d.
Proof. intro H. unfold upload. match goal with |- obind ?a _ = _ => change a with (Ok (B "x")) end. cbn [obind]. rewrite H. reflexivity. Qed.
(** ** nip96. *)
Theorem C100_nip96 sk host (sp : bool) file now h : valid sk -> sk <> [] -> int64 now -> utf8_text host -> nip96_header (p_sha c) (p_pub c) (p_schnorr c) sk host sp file now = Ok h ->
  exists t e, h = Some t /\ server_reads t = Ok e /\ public_key c sk = Ok (ev_pubkey e) /\ ev_id e = id_of c e /\ sig_ok c e = Ok true /\ ev_kind e = 27235%Z /\ ev_created_at e = now /\
  ev_tags e = [B "u"; host] :: [B "method"; B "POST"] :: (if sp then [[B "payload"; hex_encode (p_sha c file)]] else []).
Proof.
  intros V NE N T. unfold nip96_header. destruct sk as [|s0 sk0] eqn:K; [congruence|]. rewrite <- K in *. unfold nip96_auth. destruct (get_public_key (p_pub c) sk) as [pk| |] eqn:P; cbn [obind]; try discriminate.
  set (pl := if sp then Some (hex_encode (p_sha c file)) else None). destruct (sign_ok c valid L sk (nip96_event pk host pl now) V) as [e E]. unfold sign_with in E. rewrite E. intro H. destruct (signed c valid L _ _ _ E) as (A1 & A2 & A3 & A4 & A5 & A6 & A7).
  assert (TE : text_event e). { apply (signed_text c sk _ _ E); [apply nil_text| |exact N|cbv; intuition discriminate]. cbn [nip96_event ev_tags]. constructor; [apply text2; [apply plain_text; reflexivity|exact T]|]. constructor; [apply text2; apply plain_text; reflexivity|]. unfold pl. destruct sp; [|constructor]. constructor; [|constructor]. apply text2; [apply plain_text; reflexivity|apply hex_text]. }
  eexists _, e. split; [match type of H with Ok ?y = _ => assert (h = y) as -> by congruence end; reflexivity|]. split; [apply reads_header, TE|]. repeat split; try assumption. rewrite A7. cbn [nip96_event ev_tags]. unfold pl. destruct sp; reflexivity.
Qed.
Theorem C100_nip96_status st : nip96_status st = true <-> In st [200; 201; 202]%Z.
Proof. unfold nip96_status. rewrite !orb_true_iff, !Z.eqb_eq. cbn [In]. split; [intros [[->| ->]| ->]; auto|intros [<-|[<-|[<-|[]]]]; auto]. Qed.
End Blob.
(** The server's address ends with one slash when it did not end with more, and has a scheme. False: the address of a download is the server's address and the hash; there are two slashes. *)
Theorem C100_server s : has_prefix (media_server s) (B "http") = true /\ exists a, media_server s = a ++ B "/".
Proof.
  unfold media_server. split; [|eauto]. set (x := if has_prefix s (B "http") then s else B "https://" ++ s). assert (H : has_prefix x (B "http") = true). { unfold x. destruct (has_prefix s (B "http")) eqn:E; [exact E|reflexivity]. }
  clearbody x. unfold drop_slash. destruct (rev x) as [|y r] eqn:E. { assert (x = []) as -> by (rewrite <- (rev_involutive x), E; reflexivity). discriminate. }
  apply has_prefix_spec in H. destruct H as [t H]. destruct (ceqb y "/"%char) eqn:Y; [|rewrite H, <- app_assoc; apply has_prefix_app]. apply Ascii.eqb_eq in Y. subst y. assert (X : x = rev r ++ B "/") by (rewrite <- (rev_involutive x), E; reflexivity). rewrite <- X, H. apply has_prefix_app.
Qed.
Theorem C100_slashes_refuted : hr_url (download_request (fun _ => None) (media_server (B "m.x")) 0 0 (B "ab")) = B "https://m.x//ab".
Proof. reflexivity. Qed.
(** False: a request is not sent without a signature. When the signer fails an upload goes out with no header and a download with an empty one. *)
Theorem C100_unsigned_refuted server now1 now2 f sha : hr_auth (upload_request (fun _ => None) sha server now1 now2 f f) = None /\ hr_auth (download_request (fun _ => None) server now1 now2 f) = Some [].
Proof. split; reflexivity. Qed.
Example C100_applies : exists t e, hr_auth (upload_request (signer toy (hex_encode (repeat "a"%char 32))) toy_hash (media_server (B "m.x")) 5 6 (B "file") (B "file")) = Some t /\ server_reads t = Ok e /\ ev_tags e = [[B "expiration"; B "66"]; [B "t"; B "upload"]; [B "x"; hex_encode (toy_hash (B "file"))]].
Proof. eexists _, _. split; [vm_compute; reflexivity|]. split; vm_compute; reflexivity. Qed.

Print Assumptions C98_decode.
Print Assumptions C98_method.
Print Assumptions C98_no_crash_partial.
Print Assumptions C98_admin_refuted.
Print Assumptions C98_kind.
Print Assumptions C98_kind_refuted.
Print Assumptions C98_type_refuted.
Print Assumptions C100_upload.
Print Assumptions C100_delete.
Print Assumptions C100_list.
Print Assumptions C100_download.
Print Assumptions C100_grant_once.
Print Assumptions C100_download_refuted.
Print Assumptions C100_changed_refuted.
Print Assumptions C100_descriptor_refuted.
Print Assumptions C100_nip96.
Print Assumptions C100_nip96_status.
Print Assumptions C100_server.
Print Assumptions C100_slashes_refuted.
Print Assumptions C100_unsigned_refuted.
Print Assumptions C100_reports.
Print Assumptions C100_to_file.
Print Assumptions C100_to_file_refuted.

Print Assumptions C98_panics_exactly.

Print Assumptions C100_no_crash.
