(** C128: what a client gets from a remote signer with one key. *)
From Verif Require Import Base Machine EventModel JLexModel CipherModel CipherProofs CryptoModel CryptoProofs Bech32Model Nip19Model Nip19Proofs GiftModel GiftProofs KeyModel KeyProofs JsonEventProofs SignerModel SignerProofs BunkerModel BunkerProofs BunkerCallsModel
  Props_Cipher Props_Gift Props_Signer Props_Key Props_Bunker.
Import ListNotations.
Open Scope nat_scope.
Local Open Scope bool_scope.

Section Remote.
Variable c : prims.
Variable valid : str -> Prop.
Hypothesis L : lawful c valid.
Variable enc_req : request -> str.
Variable dec_req : str -> option request.
Variable enc_resp : response -> str.
Variable dec_resp : str -> option response.
Hypothesis RQ : forall r, dec_req (enc_req r) = Some r.
Hypothesis RS : forall r, dec_resp (enc_resp r) = Some r.
(** The signer [st] after any requests [h] before; the client with its key [sk]. *)
Variable st : static.
Variable h : list (event * draws).
Variable d : draws.
Variables sk pc ps : str.
Hypothesis VC : valid sk.
Hypothesis VS : valid (st_sk st).
Hypothesis PC : public_key c sk = Ok pc.
Hypothesis PS : public_key c (st_sk st) = Ok ps.
Hypothesis LD : length (d_reply d) = 32.
Definition signer (e : event) : outcome event := obind (fst (static_handle c dec_req enc_resp st (static_run c dec_req enc_resp st h) e d)) (fun x => Ok (snd x)).
(** A message that NIP-44 can carry. *)
Definition fits (t : str) : Prop := (1 <= len t <= 65535)%N.
(** The signer's owner lets this client do it; [harmless]: as the owner is told. *)
Definition agrees (harmless : bool) : Prop := match st_auth st with Some f => f harmless pc [] = true | None => True end.
Definition asks_for (k : ccall) : request -> Prop := fun r => rq_method r = ccall_method k /\ rq_params r = ccall_params k.

Lemma own_exists : exists s, own c (st_sk st) pc s /\ ss_pub s = ps /\ p_conv c ps sk = Ok (ss_conv s).
Proof.
  destruct (conv_pair c valid L sk (st_sk st) pc ps VC VS PC PS) as (k & K1 & K2). destruct (shared_pair c valid L sk (st_sk st) pc ps VC VS PC PS) as (ks & K3 & K4 & _).
  exists (mkSession ps ks k). unfold own. cbn [ss_pub ss_shared ss_conv]. auto.
Qed.
Lemma own_unique s s' : own c (st_sk st) pc s -> own c (st_sk st) pc s' -> s = s'.
Proof. destruct s as [a a1 a2], s' as [a' a1' a2']. unfold own. cbn [ss_pub ss_shared ss_conv]. intros (A & A1 & A2) (A3 & A4 & A5). congruence. Qed.
(** The event of a request, for any method. *)
Lemma request_event relays b id k now nonce e : new_bunker c sk ps relays = Ok b -> length nonce = 32 -> rpc_event c enc_req b id (ccall_method k) (ccall_params k) now nonce = Ok e ->
  ev_kind e = 24133%Z /\ ev_pubkey e = pc /\ (forall s, own c (st_sk st) pc s -> bc_conv b = ss_conv s /\ parse_request c dec_req s (ev_content e) = Ok (mkReq id (ccall_method k) (ccall_params k))).
Proof.
  intros NB LN H. destruct own_exists as (s & O & OP & OC). assert (CB : bc_conv b = ss_conv s /\ bc_sk b = sk).
  { unfold new_bunker in NB. rewrite PC, OC in NB. cbn [or_else obind] in NB. destruct (or_else [] (p_shared c ps sk)) as [x| |]; cbn [obind] in NB; [|discriminate..]. assert (b = mkBC sk pc ps relays (ss_conv s) x) as -> by congruence. split; reflexivity. }
  destruct CB as [CB SB]. unfold rpc_event in H. destruct (encrypt44 c _ _ nonce) as [ct| |] eqn:EC; [|discriminate..]. cbn [obind] in H. rewrite SB in H. destruct (signed c valid L _ _ _ H) as (G1 & _ & _ & G4 & G5 & _). cbn [ev_content ev_kind] in G4, G5.
  split; [exact G5|]. split; [congruence|]. intros s' O'. rewrite (own_unique s' s O' O). split; [exact CB|]. unfold parse_request. rewrite G4, <- CB, (round44 c valid L _ _ _ _ LN EC). cbn [obind]. rewrite RQ. reflexivity.
Qed.
Lemma enc44_fits m k n : match encrypt44 c m k n with Ok _ => fits m | Err => ~ fits m | Panic => False end.
Proof.
  destruct (encrypt44 c m k n) as [p| |] eqn:E.
  - unfold encrypt44, nip44_encrypt in E. destruct (p_mkeys c k n) as [[? ?] ?]. destruct (len m <? 1)%N eqn:E1; [discriminate E|]. destruct (65535 <? len m)%N eqn:E2; [discriminate E|]. apply N.ltb_ge in E1, E2. split; assumption.
  - intro F. destruct (enc44_ok c m k n F) as [p Q]. congruence.
  - unfold encrypt44, nip44_encrypt in E. destruct (p_mkeys c k n) as [[? ?] ?]. destruct (_ || _); discriminate E.
Qed.
(** The whole way there and back, whatever the signer's answer: it reaches the call if it fits. *)
Lemma remote_exact relays b id k now nonce s result err : new_bunker c sk ps relays = Ok b -> length nonce = 32 -> own c (st_sk st) pc s ->
  let req := mkReq id (ccall_method k) (ccall_params k) in
  static_answer c st s req d = Ok (AAnswer result err) -> fits (enc_req req) ->
  let resp := reply_of id result (err || match st_auth st with Some f => negb err && negb (f (static_harmless req) pc []) | None => false end) in
  (fits (enc_resp resp) -> remote c enc_req dec_resp b signer id k now nonce = Ok (heard id (Some resp))) /\ (~ fits (enc_resp resp) -> remote c enc_req dec_resp b signer id k now nonce = Ok None).
Proof.
  intros NB LN O req HA FQ resp. unfold remote.
  destruct (rpc_event c enc_req b id (ccall_method k) (ccall_params k) now nonce) as [e| |] eqn:RE.
  2,3: exfalso; unfold rpc_event in RE; destruct (enc44_ok c (enc_req req) (bc_conv b) nonce FQ) as [ct EC]; fold req in RE; rewrite EC in RE; cbn [obind] in RE; assert (SB : bc_sk b = sk) by (unfold new_bunker in NB; destruct (or_else [] (public_key c sk)); cbn [obind] in NB; [|discriminate..]; destruct (or_else [] (p_shared c ps sk)); cbn [obind] in NB; [|discriminate..]; destruct (or_else zero_key (p_conv c ps sk)); cbn [obind] in NB; [|discriminate..]; assert (bc_sk b = bc_sk (mkBC sk a ps relays a1 a0)) as -> by congruence; reflexivity); rewrite SB in RE; destruct (sign_ok c valid L sk (mkEvent [] [] now 24133 [[B "p"; bc_target b]] ct []) VC) as [e0 SE]; rewrite SE in RE; discriminate.
  destruct (request_event relays b id k now nonce e NB LN RE) as (KE & PE & PR). destruct (PR s O) as [CB PQ]. fold req in PQ. cbn [obind].
  unfold signer, static_handle. rewrite KE. cbn [Z.eqb Pos.eqb negb]. destruct (get_or_create c (st_sk st) (static_run c dec_req enc_resp st h) (ev_pubkey e)) as [os t'] eqn:EG. destruct (get_or_create_spec c _ _ _ _ _ (static_run_table c dec_req enc_resp st h) EG) as (_ & HO & HN2). cbn [fst]. rewrite PE in *.
  assert (os = Ok s) as ->. { destruct O as (O1 & O2 & O3). destruct os as [s'| |]; [f_equal; apply own_unique; [apply HO; reflexivity|unfold own; auto]|exfalso; destruct (HN2 ltac:(discriminate)) as [Q|[Q|Q]]; (eapply Q; eassumption)..]. }
  cbn [obind]. rewrite PQ. cbn [obind]. rewrite HA. cbn [obind]. cbv zeta. assert (static_secret req = []) as -> by (destruct k; reflexivity).
  unfold make_response. change (rq_id req) with id. fold (reply_of id result (err || match st_auth st with Some f => negb err && negb (f (static_harmless req) pc []) | None => false end)). fold resp. cbv zeta.
  pose proof (enc44_fits (enc_resp resp) (ss_conv s) (d_reply d)) as EF. destruct (encrypt44 c (enc_resp resp) (ss_conv s) (d_reply d)) as [ct| |] eqn:EC; cbn [obind fst snd]; [|split; [intro F; destruct (EF F)|reflexivity]|destruct EF].
  split; [intros _|intro F; destruct (F EF)].
  destruct (sign_ok c valid L (st_sk st) (mkEvent [] [] (d_now d) 24133 [[B "p"; pc]] ct []) VS) as [ev ES]. rewrite ES. cbn [obind snd]. destruct (signed c valid L _ _ _ ES) as (_ & _ & _ & G4 & G5 & _). cbn [ev_content ev_kind] in G4, G5.
  unfold client_read. rewrite G5. cbn [Z.eqb Pos.eqb negb]. rewrite G4, CB, (round44 c valid L _ _ _ _ LD EC). cbn [obind]. rewrite RS. reflexivity.
Qed.
Lemma agreed_flag req : agrees (static_harmless req) -> (false || match st_auth st with Some f => negb false && negb (f (static_harmless req) pc []) | None => false end) = false.
Proof. unfold agrees. destruct (st_auth st); [intros ->|]; reflexivity. Qed.
Lemma remote_gets relays b id k now nonce s result : new_bunker c sk ps relays = Ok b -> length nonce = 32 -> own c (st_sk st) pc s ->
  static_answer c st s (mkReq id (ccall_method k) (ccall_params k)) d = Ok (AAnswer result false) ->
  agrees (static_harmless (mkReq id (ccall_method k) (ccall_params k))) -> result <> [] -> result <> B "auth_url" ->
  fits (enc_req (mkReq id (ccall_method k) (ccall_params k))) -> fits (enc_resp (mkResp id false result)) ->
  remote c enc_req dec_resp b signer id k now nonce = Ok (Some (Ok result)).
Proof.
  intros NB LN O HA AG NE NA FQ FR. destruct (remote_exact relays b id k now nonce s result false NB LN O HA FQ) as [R _]. rewrite (agreed_flag _ AG) in R. assert (E : reply_of id result false = mkResp id false result) by (destruct result; [congruence|reflexivity]). rewrite E in R. rewrite (R FR). unfold heard. cbn [rs_result rs_id rs_error].
  destruct (seqb result (B "auth_url")) eqn:EA; [apply seqb_eq in EA; congruence|]. rewrite seqb_refl. reflexivity.
Qed.
(** Asking for the key gives the signer's key, and a ping comes back. *)
Theorem C128_public_key relays b id now nonce : new_bunker c sk ps relays = Ok b -> length nonce = 32 -> agrees true -> ps <> [] -> ps <> B "auth_url" ->
  fits (enc_req (mkReq id (B "get_public_key") [])) -> fits (enc_resp (mkResp id false ps)) -> remote c enc_req dec_resp b signer id CPublicKey now nonce = Ok (Some (Ok ps)).
Proof. intros NB LN AG N1 N2 F1 F2. destruct own_exists as (s & O & OP & _). apply (remote_gets relays b id CPublicKey now nonce s); try assumption. unfold static_answer. cbn [rq_method ccall_method]. rewrite OP. reflexivity. Qed.
Theorem C128_ping relays b id now nonce : new_bunker c sk ps relays = Ok b -> length nonce = 32 -> agrees true ->
  fits (enc_req (mkReq id (B "ping") [])) -> fits (enc_resp (mkResp id false (B "pong"))) -> remote c enc_req dec_resp b signer id CPing now nonce = Ok (Some (Ok (B "pong"))).
Proof. intros NB LN AG F1 F2. destruct own_exists as (s & O & OP & _). apply (remote_gets relays b id CPing now nonce s); try assumption; [reflexivity|discriminate..]. Qed.
(** Encrypting for a third person with the key [x]: they read the text as one from the signer's key. *)
Lemma third_ok x third : valid x -> public_key c x = Ok third -> pub_ok c third = true.
Proof. intros V P. exact (own_key_ok c valid L x third V P). Qed.
Theorem C128_encrypt44 relays b id now nonce x third plain ct : new_bunker c sk ps relays = Ok b -> length nonce = 32 -> length (d_nonce d) = 32 -> agrees false -> valid x -> public_key c x = Ok third ->
  enc_to c (st_sk st) third (d_nonce d) plain = Ok ct -> fits (enc_req (mkReq id (B "nip44_encrypt") [third; plain])) -> fits (enc_resp (mkResp id false ct)) ->
  remote c enc_req dec_resp b signer id (CEnc44 third plain) now nonce = Ok (Some (Ok ct)) /\ dec_from c x ps ct = Ok plain.
Proof.
  intros NB LN LD2 AG VX PX HE F1 F2. destruct own_exists as (s & O & OP & _). destruct (conv_pair c valid L (st_sk st) x ps third VS VX PS PX) as (q & K1 & K2). unfold enc_to in HE. rewrite K1 in HE. cbn [obind] in HE.
  assert (LC : (44 <= len ct)%N). { destruct (nip44_len c plain q (d_nonce d) ct (l_chacha_len c valid L) (l_hmac c valid L) LD2 HE) as [Q _]. rewrite Q. pose proof (N.div_mod (67 + calc_padding (len plain) + 2) 3 ltac:(discriminate)). pose proof (N.mod_lt (67 + calc_padding (len plain) + 2) 3 ltac:(discriminate)). lia. }
  split; [|unfold dec_from; rewrite K2; cbn [obind]; apply (round44 c valid L _ _ (d_nonce d)); assumption].
  apply (remote_gets relays b id (CEnc44 third plain) now nonce s); try assumption.
  - unfold static_answer. cbn [rq_method ccall_method ccall_params]. change (two_args c (mkReq id (B "nip44_encrypt") [third; plain]) (fun third plain => obind (p_conv c third (st_sk st)) (fun k => encrypt44 c plain k (d_nonce d))) = Ok (AAnswer ct false)).
    unfold two_args. cbn [rq_params]. rewrite (third_ok x third VX PX), K1. cbn [obind]. rewrite HE. reflexivity.
  - intros ->. cbn in LC. lia.
  - intros ->. vm_compute in LC. apply LC. reflexivity.
Qed.
(** Decrypting what a third person encrypted for the signer's key gives their text. *)
Theorem C128_decrypt44 relays b id now nonce x third n plain ct : new_bunker c sk ps relays = Ok b -> length nonce = 32 -> agrees false -> valid x -> public_key c x = Ok third ->
  length n = 32 -> enc_to c x ps n plain = Ok ct -> plain <> B "auth_url" -> fits (enc_req (mkReq id (B "nip44_decrypt") [third; ct])) -> fits (enc_resp (mkResp id false plain)) ->
  remote c enc_req dec_resp b signer id (CDec44 third ct) now nonce = Ok (Some (Ok plain)).
Proof.
  intros NB LN AG VX PX LX HE NA F1 F2. destruct own_exists as (s & O & OP & _). destruct (conv_pair c valid L (st_sk st) x ps third VS VX PS PX) as (q & K1 & K2). unfold enc_to in HE. rewrite K2 in HE. cbn [obind] in HE.
  apply (remote_gets relays b id (CDec44 third ct) now nonce s); try assumption.
  - unfold static_answer. cbn [rq_method ccall_method ccall_params]. change (two_args c (mkReq id (B "nip44_decrypt") [third; ct]) (fun third text => obind (p_conv c third (st_sk st)) (fun k => decrypt44 c text k)) = Ok (AAnswer plain false)).
    unfold two_args. cbn [rq_params]. rewrite (third_ok x third VX PX), K1. cbn [obind]. rewrite (round44 c valid L _ _ _ _ LX HE). reflexivity.
  - intros ->. unfold encrypt44, nip44_encrypt in HE. destruct (p_mkeys c q n) as [[? ?] ?]. discriminate HE.
Qed.
(** The same in the older encryption; the empty text is left out, see below. *)
Theorem C128_encrypt04 relays b id now nonce x third k plain ct : new_bunker c sk ps relays = Ok b -> length nonce = 32 -> length (d_iv d) = 16 -> agrees false -> valid x -> public_key c x = Ok third ->
  p_shared c ps x = Ok k -> encrypt04 c plain k (d_iv d) = Ok ct -> fits (enc_req (mkReq id (B "nip04_encrypt") [third; plain])) -> fits (enc_resp (mkResp id false ct)) ->
  remote c enc_req dec_resp b signer id (CEnc04 third plain) now nonce = Ok (Some (Ok ct)) /\ decrypt04 c ct k = Ok plain.
Proof.
  intros NB LN LI AG VX PX PK HE F1 F2. destruct own_exists as (s & O & OP & _). destruct (shared_pair c valid L (st_sk st) x ps third VS VX PS PX) as (q & K1 & K2 & K3). assert (q = k) as -> by congruence.
  split; [|apply (round04 c valid L _ _ (d_iv d)); assumption].
  assert (X : exists a b, ct = a ++ B "?" ++ b). { unfold encrypt04, nip04_encrypt in HE. destruct (negb (aes_key k)); [discriminate|]. cbv zeta in HE. match type of HE with Ok (?p ++ ?q ++ ?r) = _ => exists p, (B "iv=" ++ r); change q with (B "?" ++ B "iv=") in HE end. rewrite <- app_assoc in HE. congruence. }
  apply (remote_gets relays b id (CEnc04 third plain) now nonce s); try assumption.
  - unfold static_answer. cbn [rq_method ccall_method ccall_params]. change (two_args c (mkReq id (B "nip04_encrypt") [third; plain]) (fun third plain => obind (p_shared c third (st_sk st)) (fun k => encrypt04 c plain k (d_iv d))) = Ok (AAnswer ct false)).
    unfold two_args. cbn [rq_params]. rewrite (third_ok x third VX PX), K1. cbn [obind]. rewrite HE. reflexivity.
  - destruct X as (a & b0 & ->). destruct a; discriminate.
  - destruct X as (a & b0 & ->). intro E. assert (I0 : In "?"%char (B "auth_url")) by (rewrite <- E; apply in_or_app; right; left; reflexivity). cbn in I0. repeat (destruct I0 as [I0|I0]; [discriminate I0|]). exact I0.
Qed.
Theorem C128_decrypt04 relays b id now nonce x third k iv plain ct : new_bunker c sk ps relays = Ok b -> length nonce = 32 -> agrees false -> valid x -> public_key c x = Ok third ->
  length iv = 16 -> p_shared c ps x = Ok k -> encrypt04 c plain k iv = Ok ct -> plain <> [] -> plain <> B "auth_url" -> fits (enc_req (mkReq id (B "nip04_decrypt") [third; ct])) -> fits (enc_resp (mkResp id false plain)) ->
  remote c enc_req dec_resp b signer id (CDec04 third ct) now nonce = Ok (Some (Ok plain)).
Proof.
  intros NB LN AG VX PX LI PK HE NE NA F1 F2. destruct own_exists as (s & O & OP & _). destruct (shared_pair c valid L (st_sk st) x ps third VS VX PS PX) as (q & K1 & K2 & K3). assert (q = k) as -> by congruence.
  apply (remote_gets relays b id (CDec04 third ct) now nonce s); try assumption.
  unfold static_answer. cbn [rq_method ccall_method ccall_params]. change (two_args c (mkReq id (B "nip04_decrypt") [third; ct]) (fun third text => obind (p_shared c third (st_sk st)) (fun k => decrypt04 c text k)) = Ok (AAnswer plain false)).
  unfold two_args. cbn [rq_params]. rewrite (third_ok x third VX PX), K1. cbn [obind]. rewrite (round04 c valid L _ _ _ _ K3 LI HE). reflexivity.
Qed.
(** Signing gives the text of an event that the signer's key signed, with everything that was asked for. *)
Theorem C128_sign relays b id now nonce e : new_bunker c sk ps relays = Ok b -> length nonce = 32 -> agrees false -> text_event e ->
  fits (enc_req (mkReq id (B "sign_event") [encode_event e])) -> (forall e', sign_with c (st_sk st) e = Ok e' -> fits (enc_resp (mkResp id false (encode_event e')))) ->
  exists e', remote c enc_req dec_resp b signer id (CSign e) now nonce = Ok (Some (Ok (encode_event e'))) /\ ev_pubkey e' = ps /\ ev_id e' = id_of c e' /\ sig_ok c e' = Ok true /\
    ev_content e' = ev_content e /\ ev_kind e' = ev_kind e /\ ev_created_at e' = ev_created_at e /\ ev_tags e' = ev_tags e.
Proof.
  intros NB LN AG HT F1 F2. destruct own_exists as (s & O & OP & _). destruct (sign_ok c valid L (st_sk st) e VS) as [e' ES]. exists e'. destruct (signed c valid L _ _ _ ES) as (A1 & A2 & A3 & A4 & A5 & A6 & A7).
  split; [|repeat split; try assumption; congruence].
  apply (remote_gets relays b id (CSign e) now nonce s); try assumption.
  - unfold static_answer. cbn [rq_method ccall_method ccall_params]. change (one_arg (mkReq id (B "sign_event") [encode_event e]) (fun j => obind (decode_event j) (fun e => obind (sign_with c (st_sk st) e) (fun e' => Ok (encode_event e')))) = Ok (AAnswer (encode_event e') false)).
    unfold one_arg. cbn [rq_params]. rewrite event_round_trip by exact HT. cbn [obind]. rewrite ES. reflexivity.
  - unfold encode_event. discriminate.
  - unfold encode_event. discriminate.
  - apply F2, ES.
Qed.
Lemma answered_kind s id k : match static_answer c st s (mkReq id (ccall_method k) (ccall_params k)) d with Ok (AAnswer _ _) | Panic => True | _ => False end.
Proof.
  destruct k; unfold static_answer; cbn [rq_method ccall_method]; repeat match goal with |- context [seqb (B ?a) (B ?b)] => let v := eval vm_compute in (seqb (B a) (B b)) in change (seqb (B a) (B b)) with v end; cbv iota; try exact Logic.I; unfold one_arg, two_args, answer_of; cbn [rq_params ccall_params].
  - destruct (obind (decode_event _) _); exact Logic.I.
  - destruct (pub_ok c target); [|exact Logic.I]. destruct (obind (p_conv c target _) _); exact Logic.I.
  - destruct (pub_ok c target); [|exact Logic.I]. destruct (obind (p_conv c target _) _); exact Logic.I.
  - destruct (pub_ok c target); [|exact Logic.I]. destruct (obind (p_shared c target _) _); exact Logic.I.
  - destruct (pub_ok c target); [|exact Logic.I]. destruct (obind (p_shared c target _) _); exact Logic.I.
Qed.
(** A refusal is an error at the client. *)
Theorem C128_refused relays b id k now nonce f : new_bunker c sk ps relays = Ok b -> length nonce = 32 -> st_auth st = Some f -> (forall harmless, f harmless pc [] = false) ->
  fits (enc_req (mkReq id (ccall_method k) (ccall_params k))) -> fits (enc_resp (mkResp id true [])) ->
  (forall s, own c (st_sk st) pc s -> static_answer c st s (mkReq id (ccall_method k) (ccall_params k)) d <> Panic) ->
  remote c enc_req dec_resp b signer id k now nonce = Ok (Some Err).
Proof.
  intros NB LN A1 A2 F1 F2 NP. destruct own_exists as (s & O & _). specialize (NP s O). pose proof (answered_kind s id k) as AK. destruct (static_answer c st s _ d) as [[|result err]| |] eqn:HA; try (destruct AK; fail); [|congruence].
  destruct (remote_exact relays b id k now nonce s result err NB LN O HA F1) as [R _]. rewrite A1, A2 in R. replace (err || negb err && negb false) with true in R by (destruct err; reflexivity). unfold reply_of in R. rewrite (R F2). unfold heard. cbn [rs_result rs_id rs_error]. change (seqb [] (B "auth_url")) with false. rewrite seqb_refl. reflexivity.
Qed.
(** But some texts never come back, though the signer has no trouble with them and agrees: the call waits until its context ends. "auth_url" is taken for something else, ... *)
Lemma silent relays b id k now nonce s result : new_bunker c sk ps relays = Ok b -> length nonce = 32 -> own c (st_sk st) pc s ->
  static_answer c st s (mkReq id (ccall_method k) (ccall_params k)) d = Ok (AAnswer result false) -> agrees (static_harmless (mkReq id (ccall_method k) (ccall_params k))) -> fits (enc_req (mkReq id (ccall_method k) (ccall_params k))) ->
  ~ fits (enc_resp (reply_of id result false)) \/ heard id (Some (reply_of id result false)) = None -> remote c enc_req dec_resp b signer id k now nonce = Ok None.
Proof.
  intros NB LN O HA AG F1 H. destruct (remote_exact relays b id k now nonce s result false NB LN O HA F1) as [R1 R2]. rewrite (agreed_flag _ AG) in R1, R2. destruct H as [H|H]; [exact (R2 H)|].
  pose proof (enc44_fits (enc_resp (reply_of id result false)) [] []) as EF. destruct (encrypt44 c _ [] []); [rewrite (R1 EF), H; reflexivity|exact (R2 EF)|destruct EF].
Qed.
Theorem C128_auth_url_refuted relays b id now nonce x third n ct : new_bunker c sk ps relays = Ok b -> length nonce = 32 -> agrees false -> valid x -> public_key c x = Ok third ->
  length n = 32 -> enc_to c x ps n (B "auth_url") = Ok ct -> fits (enc_req (mkReq id (B "nip44_decrypt") [third; ct])) ->
  remote c enc_req dec_resp b signer id (CDec44 third ct) now nonce = Ok None.
Proof.
  intros NB LN AG VX PX LX HE F1. destruct own_exists as (s & O & OP & _). destruct (conv_pair c valid L (st_sk st) x ps third VS VX PS PX) as (q & K1 & K2). unfold enc_to in HE. rewrite K2 in HE. cbn [obind] in HE.
  apply (silent relays b id (CDec44 third ct) now nonce s (B "auth_url")); try assumption; [|right; reflexivity].
  unfold static_answer. cbn [rq_method ccall_method ccall_params]. change (two_args c (mkReq id (B "nip44_decrypt") [third; ct]) (fun third text => obind (p_conv c third (st_sk st)) (fun k => decrypt44 c text k)) = Ok (AAnswer (B "auth_url") false)).
  unfold two_args. cbn [rq_params]. rewrite (third_ok x third VX PX), K1. cbn [obind]. rewrite (round44 c valid L _ _ _ _ LX HE). reflexivity.
Qed.
(** ... the answer with an empty text has no id, ... *)
Theorem C128_empty_refuted relays b id now nonce x third k iv ct : new_bunker c sk ps relays = Ok b -> length nonce = 32 -> agrees false -> valid x -> public_key c x = Ok third ->
  length iv = 16 -> p_shared c ps x = Ok k -> encrypt04 c [] k iv = Ok ct -> id <> [] -> fits (enc_req (mkReq id (B "nip04_decrypt") [third; ct])) ->
  remote c enc_req dec_resp b signer id (CDec04 third ct) now nonce = Ok None.
Proof.
  intros NB LN AG VX PX LI PK HE NI F1. destruct own_exists as (s & O & OP & _). destruct (shared_pair c valid L (st_sk st) x ps third VS VX PS PX) as (q & K1 & K2 & K3). assert (q = k) as -> by congruence.
  apply (silent relays b id (CDec04 third ct) now nonce s []); try assumption; [|right; unfold heard, reply_of; cbn; destruct id; [congruence|reflexivity]].
  unfold static_answer. cbn [rq_method ccall_method ccall_params]. change (two_args c (mkReq id (B "nip04_decrypt") [third; ct]) (fun third text => obind (p_shared c third (st_sk st)) (fun k => decrypt04 c text k)) = Ok (AAnswer [] false)).
  unfold two_args. cbn [rq_params]. rewrite (third_ok x third VX PX), K1. cbn [obind]. rewrite (round04 c valid L _ _ _ _ K3 LI HE). reflexivity.
Qed.
(** ... and the encryption of a text of more than 40960 bytes no longer fits into an answer. NIP-44 itself takes up to 65535. *)
Lemma long_padding n : (40960 < n <= 65535)%N -> (49152 <= calc_padding n)%N.
Proof.
  intros H. unfold calc_padding. destruct (N.leb_spec n 32); [lia|]. assert (N.log2 (n - 1) = 15%N) as -> by (apply N.log2_unique; [lia|change (2 ^ 15)%N with 32768%N; change (2 ^ N.succ 15)%N with 65536%N; lia]).
  change (2 ^ (15 + 1))%N with 65536%N. change (N.max 32 (65536 / 8)) with 8192%N. cbv zeta. pose proof (N.div_le_lower_bound (n - 1) 8192 5 ltac:(discriminate) ltac:(lia)). lia.
Qed.
Theorem C128_long_refuted relays b id now nonce x third plain ct : (forall r, (len (rs_result r) <= len (enc_resp r))%N) -> new_bunker c sk ps relays = Ok b -> length nonce = 32 -> length (d_nonce d) = 32 -> agrees false -> valid x -> public_key c x = Ok third ->
  (40960 < len plain)%N -> enc_to c (st_sk st) third (d_nonce d) plain = Ok ct -> fits (enc_req (mkReq id (B "nip44_encrypt") [third; plain])) ->
  remote c enc_req dec_resp b signer id (CEnc44 third plain) now nonce = Ok None.
Proof.
  intros RL NB LN LD2 AG VX PX LP HE F1. destruct own_exists as (s & O & OP & _). destruct (conv_pair c valid L (st_sk st) x ps third VS VX PS PX) as (q & K1 & K2). unfold enc_to in HE. rewrite K1 in HE. cbn [obind] in HE.
  assert (LC : (65535 < len ct)%N). { destruct (nip44_len c plain q (d_nonce d) ct (l_chacha_len c valid L) (l_hmac c valid L) LD2 HE) as [Q _]. rewrite Q. pose proof (enc44_fits plain q (d_nonce d)) as EF. rewrite HE in EF. destruct EF as [_ EF]. pose proof (long_padding (len plain) (conj LP EF)).
    pose proof (N.div_mod (67 + calc_padding (len plain) + 2) 3 ltac:(discriminate)). pose proof (N.mod_lt (67 + calc_padding (len plain) + 2) 3 ltac:(discriminate)). lia. }
  apply (silent relays b id (CEnc44 third plain) now nonce s ct); try assumption.
  - unfold static_answer. cbn [rq_method ccall_method ccall_params]. change (two_args c (mkReq id (B "nip44_encrypt") [third; plain]) (fun third plain => obind (p_conv c third (st_sk st)) (fun k => encrypt44 c plain k (d_nonce d))) = Ok (AAnswer ct false)).
    unfold two_args. cbn [rq_params]. rewrite (third_ok x third VX PX), K1. cbn [obind]. rewrite HE. reflexivity.
  - left. intros [_ F]. assert (E : reply_of id ct false = mkResp id false ct) by (destruct ct; [cbn in LC; lia|reflexivity]). rewrite E in F. specialize (RL (mkResp id false ct)). cbn [rs_result] in RL. lia.
Qed.
End Remote.

(** ** The key is asked for until there is an answer, then never again; what it is nobody checks. *)
Theorem C128_key_cached answers i j pk a : nth_error (public_keys [] answers) i = Some (Ok pk, a) -> pk <> [] -> i < j -> j < length answers -> nth_error (public_keys [] answers) j = Some (Ok pk, false).
Proof.
  assert (S0 : forall more i, i < length more -> forall pk, pk <> [] -> nth_error (public_keys pk more) i = Some (Ok pk, false)).
  { clear. induction more as [|x r IH]; intros i' LI pk' NP; [cbn [length] in LI; lia|]. cbn [public_keys]. assert (negb (empty pk') = true) as -> by (destruct pk'; [congruence|reflexivity]). destruct i' as [|i']; [reflexivity|]. cbn [nth_error]. apply IH; [cbn [length] in LI; lia|exact NP]. }
  revert i j. induction answers as [|x r IH]; intros i j H NP IJ JL; [destruct i; discriminate H|]. cbn [public_keys negb empty] in *. destruct j as [|j]; [lia|]. cbn [nth_error length] in *. destruct i as [|i]; cbn [nth_error] in H.
  - assert (x = Ok pk) as -> by congruence. apply S0; [lia|exact NP].
  - destruct x as [[|z x]| |]; [apply (IH i); try assumption; lia| |apply (IH i); try assumption; lia..]. assert (LI : i < length r) by lia. rewrite (S0 r i LI (z :: x) ltac:(discriminate)) in H. assert (pk = z :: x) as -> by congruence. apply S0; [lia|discriminate].
Qed.
Theorem C128_key_asked answers i x : nth_error answers i = Some x -> (forall j pk, j < i -> nth_error answers j = Some (Ok pk) -> pk = []) -> nth_error (public_keys [] answers) i = Some (x, true).
Proof.
  revert i. induction answers as [|y r IH]; intros i H Q; [destruct i; discriminate H|]. change (public_keys [] (y :: r)) with ((y, true) :: public_keys (match y with Ok z => z | _ => [] end) r). destruct i as [|i]; cbn [nth_error] in *; [injection H as ->; reflexivity|].
  assert (T : nth_error (public_keys [] r) i = Some (x, true)) by (apply IH; [exact H|]; intros j pk J N0; apply (Q (S j)); [lia|exact N0]).
  destruct y as [p| |]; [|exact T..]. assert (p = []) as -> by (apply (Q 0); [lia|reflexivity]). exact T.
Qed.
Theorem C128_key_unchecked_refuted junk pk : junk <> [] -> public_keys [] [Ok junk; Ok pk] = [(Ok junk, true); (Ok junk, false)].
Proof. destruct junk; [congruence|reflexivity]. Qed.
Example C128_key_example : public_keys [] [Err; Ok (B "aa"); Ok (B "bb")] = [(Err, true); (Ok (B "aa"), true); (Ok (B "aa"), false)].
Proof. reflexivity. Qed.

(** ** A small world, in the encoding of Props_Bunker: bob's client, alice's key in the signer, carol is the third person *)
Definition calls_one : static := mkStatic alice (B "{}") (Some (fun harmless from _ => harmless || seqb from bob)).
Definition asked (k : ccall) : outcome (option (outcome str)) := obind (new_bunker toy bob alice []) (fun b => remote toy wire_req read_resp b (signer toy read_req wire_resp calls_one [] draw1) (B "gn-1-1") k 7 nonce1).
Definition told_carol (o : outcome (option (outcome str))) : outcome str := match o with Ok (Some (Ok ct)) => dec_from toy carol alice ct | _ => Err end.
Definition from_carol (t : str) : str := match enc_to toy carol alice nonce1 t with Ok ct => ct | _ => [] end.
Example C128_example : asked CPing = Ok (Some (Ok (B "pong"))) /\ asked CPublicKey = Ok (Some (Ok alice)) /\ told_carol (asked (CEnc44 carol (B "hi"))) = Ok (B "hi") /\ asked (CDec44 carol (from_carol (B "hi"))) = Ok (Some (Ok (B "hi"))) /\
  asked (CDec44 carol (from_carol (B "auth_url"))) = Ok None /\ asked (CEnc44 (B "nobody") (B "hi")) = Ok (Some Err).
Proof. vm_compute. repeat split. Qed.
Example C128_hypotheses : (forall r, read_req (wire_req r) = Some r) /\ (forall r, read_resp (wire_resp r) = Some r) /\ (forall r, (len (rs_result r) <= len (wire_resp r))%N) /\ agrees calls_one bob false /\ lawful toy toy_valid /\ toy_valid bob /\ public_key toy bob = Ok bob /\ public_key toy alice = Ok alice /\
  fits (wire_req (mkReq (B "gn-1-1") (B "nip44_decrypt") [carol; from_carol (B "auth_url")])).
Proof.
  split; [intros [i m ps]; unfold read_req, wire_req; rewrite dec_enc_lines; reflexivity|]. split; [intros [i e r]; unfold read_resp, wire_resp; rewrite dec_enc_lines; destruct e; reflexivity|].
  split; [intros [i e r]; cbn [rs_result]; unfold wire_resp, enc_lines; cbn [map concat rs_id rs_error rs_result]; unfold len; rewrite !app_length, !hex_encode_length; lia|]. split; [reflexivity|]. split; [exact toy_lawful|]. split; [apply toy_keys_valid|]. split; [vm_compute; reflexivity|]. split; [vm_compute; reflexivity|].
  split; vm_compute; discriminate.
Qed.

Print Assumptions C128_public_key.
Print Assumptions C128_ping.
Print Assumptions C128_encrypt44.
Print Assumptions C128_decrypt44.
Print Assumptions C128_encrypt04.
Print Assumptions C128_decrypt04.
Print Assumptions C128_sign.
Print Assumptions C128_refused.
Print Assumptions C128_auth_url_refuted.
Print Assumptions C128_empty_refuted.
Print Assumptions C128_long_refuted.
Print Assumptions C128_key_cached.
Print Assumptions C128_key_asked.
Print Assumptions C128_key_unchecked_refuted.
