(** C66, C67 and the remote part of C68: remote signers. *)
From Coq Require Import Sorted.
From Verif Require Import Base Machine EventModel EventProofs TagsModel JLexModel JLexProofs JsonEventProofs CipherModel CipherProofs CryptoModel CryptoProofs Nip19Model GiftModel GiftProofs SignerModel SignerProofs Props_Cipher Props_Gift.
Import ListNotations.
Open Scope nat_scope.

(** * C67 *)
(** The first session put in for a client. *)
Fixpoint first_for (k : str) (ops : list (str * session)) : option session := match ops with [] => None | (k', s) :: r => if seqb k k' then Some s else first_for k r end.
Definition after (ops : list (str * session)) : table := fold_left (fun t o => set_session t (fst o) (snd o)) ops (mkTable [] []).
Theorem C67_ordered_map ops : StronglySorted slt (tb_keys (after ops)) /\ NoDup (tb_keys (after ops)) /\ length (tb_sessions (after ops)) = length (tb_keys (after ops)) /\
  forall k, get_session (after ops) k = Ok (first_for k ops).
Proof.
  assert (G : forall ops t al, good_table t al -> exists al', good_table (fold_left (fun t o => set_session t (fst o) (snd o)) ops t) al' /\ forall k, assoc k al' = match assoc k al with Some s => Some s | None => first_for k ops end).
  { clear ops. induction ops as [|[k s] ops IH]; intros t al HG; cbn [fold_left fst snd first_for]; [exists al; split; [exact HG|]; intro k; destruct (assoc k al); reflexivity|].
    destruct (set_session_spec t al k s HG) as (al1 & G1 & A1). destruct (IH _ al1 G1) as (al2 & G2 & A2). exists al2. split; [exact G2|]. intro k'. rewrite A2, A1. destruct (seqb k' k) eqn:E; [|reflexivity]. apply seqb_eq in E. subst k'. destruct (assoc k al); reflexivity. }
  destruct (G ops _ [] empty_table) as (al & HG & HA). pose proof HG as (HK & HS & HO). unfold after. split; [rewrite HK; exact HO|]. split; [rewrite HK; apply sorted_nodup; exact HO|]. split; [rewrite HK, HS, !map_length; reflexivity|].
  intro k. rewrite (get_session_spec _ al k HG), HA. reflexivity.
Qed.
Print Assumptions C67_ordered_map.
Definition sess (x : str) : session := mkSession x [] [].
Example C67_example : tb_keys (after [(B "m", sess (B "1")); (B "c", sess (B "2")); (B "x", sess (B "3")); (B "c", sess (B "4")); (B "d", sess (B "5"))]) = [B "c"; B "d"; B "m"; B "x"] /\
  get_session (after [(B "m", sess (B "1")); (B "c", sess (B "2")); (B "x", sess (B "3")); (B "c", sess (B "4")); (B "d", sess (B "5"))]) (B "c") = Ok (Some (sess (B "2"))).
Proof. vm_compute. auto. Qed.
(** GetSession and the dynamic signer read without the lock: a lookup that finds its place before an insertion and reads the session after it gets the session of another client. *)
Theorem C67_unlocked_refuted : exists ops client other s idx, let t := after ops in let t' := set_session t other s in
  client <> other /\ get_session t client = Ok (Some (sess client)) /\ get_session t' client = Ok (Some (sess client)) /\ bin_search (tb_keys t) client = (idx, true) /\ nth_error (tb_sessions t') idx = Some (sess other).
Proof. exists [(B "m", sess (B "m"))], (B "m"), (B "c"), (sess (B "c")), 0. vm_compute. repeat split; discriminate. Qed.
Print Assumptions C67_unlocked_refuted.

(** * C66: the signer with one key *)
Section Static.
Context (c : prims) (valid : str -> Prop) (L : lawful c valid) (dec_req : str -> option request) (enc_resp : response -> str).
Notation run st h := (static_run c dec_req enc_resp st h).
Notation handle st h e d := (static_handle c dec_req enc_resp st (run st h) e d).
(** What the authoriser should be asked. *)
Definition harmless (req : request) : Prop := In (rq_method req) [B "connect"; B "get_public_key"; B "get_relays"; B "ping"].
Definition secret_of (req : request) (secret : str) : Prop := if seqb (rq_method req) (B "connect") then secret = nth 1 (rq_params req) [] else secret = [].
(** Nothing is answered, whatever came before, unless the authoriser agreed. *)
Theorem C66_static_authorised st h e d req resp ev f : fst (handle st h e d) = Ok (req, resp, ev) -> rs_result resp <> [] -> st_auth st = Some f ->
  exists secret b, secret_of req secret /\ (b = true <-> harmless req) /\ f b (ev_pubkey e) secret = true.
Proof.
  intros H HR HF. apply static_handle_cases in H; [|apply static_run_table]. destruct H as (_ & s & result & err & ct & _ & _ & _ & HP & _). rewrite HF in HP.
  exists (static_secret req), (static_harmless req). split; [|split].
  - unfold secret_of, static_secret. destruct (seqb (rq_method req) (B "connect")); [|reflexivity]. destruct (rq_params req) as [|a [|x l]]; reflexivity.
  - unfold static_harmless, harmless. rewrite existsb_exists. split; [intros (x & A & Q); apply seqb_eq in Q; rewrite Q; exact A|]. intro A. exists (rq_method req). split; [exact A|apply seqb_refl].
  - destruct (f _ _ _) eqn:E; [reflexivity|]. exfalso. apply HR. rewrite HP. unfold reply_of. destruct err; reflexivity.
Qed.
(** A refusal or a failure says nothing else. *)
Theorem C66_static_refusal st h e d req resp ev : fst (handle st h e d) = Ok (req, resp, ev) -> rs_error resp = true -> rs_result resp = [] /\ rs_id resp = rq_id req.
Proof.
  intros H HE. apply static_handle_cases in H; [|apply static_run_table]. destruct H as (_ & s & result & err & ct & _ & _ & _ & HP & _). rewrite HP in *. unfold reply_of in *. destruct (err || _); [auto|]. destruct (negb (empty result)); discriminate.
Qed.
(** The answer can be read by the requester, and is signed, addressed and of the right kind. *)
Theorem C66_static_reply st h e d req resp ev b : valid b -> valid (st_sk st) -> public_key c b = Ok (ev_pubkey e) -> length (d_reply d) = 32 -> fst (handle st h e d) = Ok (req, resp, ev) ->
  public_key c (st_sk st) = Ok (ev_pubkey ev) /\ sig_ok c ev = Ok true /\ ev_id ev = id_of c ev /\ ev_kind ev = 24133%Z /\ ev_tags ev = [[B "p"; ev_pubkey e]] /\
  dec_from c b (ev_pubkey ev) (ev_content ev) = Ok (enc_resp resp).
Proof.
  intros VB VS PB HN H. apply static_handle_cases in H; [|apply static_run_table]. destruct H as (_ & s & result & err & ct & (O1 & O2 & O3) & _ & _ & _ & HE & HS). destruct (signed c valid L _ _ _ HS) as (A & B & C & D & E & F & G). cbn [ev_content ev_kind ev_tags] in *.
  repeat split; try assumption. destruct (conv_pair c valid L (st_sk st) b (ev_pubkey ev) (ev_pubkey e) VS VB A PB) as (k & K1 & K2). unfold dec_from. rewrite K2, D. cbn [obind]. assert (k = ss_conv s) by congruence. subst k. apply (round44 c valid L _ _ (d_reply d)); assumption.
Qed.
(** It carries the request's id unless the answer is the empty text. *)
Theorem C66_static_id_partial st h e d req resp ev : fst (handle st h e d) = Ok (req, resp, ev) -> rs_result resp <> [] \/ rs_error resp = true -> rs_id resp = rq_id req.
Proof.
  intros H HE. apply static_handle_cases in H; [|apply static_run_table]. destruct H as (_ & s & result & err & ct & _ & _ & _ & HP & _). rewrite HP in *. unfold reply_of in *. destruct (err || _); [reflexivity|]. destruct (negb (empty result)) eqn:E; [reflexivity|]. exfalso. destruct HE as [HE|HE]; [apply HE; reflexivity|discriminate].
Qed.
(** What a result means. [x] stands for the secret key of a third party. *)
Definition meaning (st : static) (req : request) (result : str) : Prop :=
  let m := rq_method req in
  (m = B "connect" /\ result = B "ack") \/ (m = B "ping" /\ result = B "pong") \/ (m = B "get_public_key" /\ public_key c (st_sk st) = Ok result) \/ (m = B "get_relays" /\ result = st_relays st) \/
  (m = B "sign_event" /\ exists j e e', rq_params req = [j] /\ decode_event j = Ok e /\ result = encode_event e' /\ sig_ok c e' = Ok true /\ ev_id e' = id_of c e' /\ public_key c (st_sk st) = Ok (ev_pubkey e') /\
     ev_content e' = ev_content e /\ ev_kind e' = ev_kind e /\ ev_tags e' = ev_tags e /\ ev_created_at e' = ev_created_at e) \/
  (m = B "nip44_encrypt" /\ exists third plain, rq_params req = [third; plain] /\ forall x px, valid x -> public_key c x = Ok third -> public_key c (st_sk st) = Ok px -> dec_from c x px result = Ok plain) \/
  (m = B "nip44_decrypt" /\ exists third text, rq_params req = [third; text] /\ forall x px n plain, valid x -> public_key c x = Ok third -> public_key c (st_sk st) = Ok px -> length n = 32 -> enc_to c x px n plain = Ok text -> result = plain) \/
  (m = B "nip04_encrypt" /\ exists third plain, rq_params req = [third; plain] /\ forall x px k, valid x -> public_key c x = Ok third -> public_key c (st_sk st) = Ok px -> p_shared c px x = Ok k -> decrypt04 c result k = Ok plain) \/
  (m = B "nip04_decrypt" /\ exists third text, rq_params req = [third; text] /\ forall x px k iv plain, valid x -> public_key c x = Ok third -> public_key c (st_sk st) = Ok px -> length iv = 16 -> p_shared c px x = Ok k -> encrypt04 c plain k iv = Ok text -> result = plain).
Lemma shared_pair a b pa pb : valid a -> valid b -> public_key c a = Ok pa -> public_key c b = Ok pb -> exists k, p_shared c pb a = Ok k /\ p_shared c pa b = Ok k /\ length k = 32.
Proof. intros VA VB PA PB. destruct (l_shared c valid L a b VA VB) as (x & y & k & A & B & C & D & E). exists k. repeat split; congruence. Qed.
Lemma one_arg_ok req f result : one_arg req f = Ok (AAnswer result false) -> exists j, rq_params req = [j] /\ f j = Ok result.
Proof. unfold one_arg. destruct (rq_params req) as [|j [|]]; try discriminate. unfold answer_of. destruct (f j) as [x| |] eqn:E; try discriminate. intro H. exists j. split; congruence. Qed.
Lemma two_args_ok req f result : two_args c req f = Ok (AAnswer result false) -> exists a b, rq_params req = [a; b] /\ f a b = Ok result.
Proof. unfold two_args. destruct (rq_params req) as [|a [|b [|]]]; try discriminate. destruct (pub_ok c a); [|discriminate]. unfold answer_of. destruct (f a b) as [x| |] eqn:E; try discriminate. intro H. exists a, b. split; congruence. Qed.
Lemma answer_means st k s req d result : valid (st_sk st) -> length (d_nonce d) = 32 -> length (d_iv d) = 16 -> own c (st_sk st) k s -> static_answer c st s req d = Ok (AAnswer result false) -> meaning st req result.
Proof.
  intros VS HN HI (O1 & O2 & O3) H. unfold static_answer in H. unfold meaning.
  destruct (seqb (rq_method req) (B "connect")) eqn:M1; [apply seqb_eq in M1; left; split; [exact M1|congruence]|]. destruct (seqb (rq_method req) (B "get_public_key")) eqn:M2; [apply seqb_eq in M2; right; right; left; split; [exact M2|congruence]|].
  destruct (seqb (rq_method req) (B "sign_event")) eqn:M3.
  { apply seqb_eq in M3. right; right; right; right; left. split; [exact M3|]. apply one_arg_ok in H. destruct H as (j & J1 & J2). destruct (decode_event j) as [e| |] eqn:ED; cbn [obind] in J2; [|discriminate..]. destruct (sign_with c (st_sk st) e) as [e'| |] eqn:ES; cbn [obind] in J2; [|discriminate..].
    destruct (signed c valid L _ _ _ ES) as (A & B & C & D & E & F & G). exists j, e, e'. repeat split; try assumption. congruence. }
  destruct (seqb (rq_method req) (B "get_relays")) eqn:M4; [apply seqb_eq in M4; right; right; right; left; split; [exact M4|congruence]|].
  destruct (seqb (rq_method req) (B "nip44_encrypt")) eqn:M5.
  { apply seqb_eq in M5. right; right; right; right; right; left. split; [exact M5|]. apply two_args_ok in H. destruct H as (third & plain & P & F). exists third, plain. split; [exact P|]. intros x px VX PX PS. destruct (conv_pair c valid L (st_sk st) x px third VS VX PS PX) as (q & K1 & K2). rewrite K1 in F. cbn [obind] in F. unfold dec_from. rewrite K2. cbn [obind]. apply (round44 c valid L _ _ (d_nonce d)); assumption. }
  destruct (seqb (rq_method req) (B "nip44_decrypt")) eqn:M6.
  { apply seqb_eq in M6. right; right; right; right; right; right; left. split; [exact M6|]. apply two_args_ok in H. destruct H as (third & text & P & F). exists third, text. split; [exact P|]. intros x px n plain VX PX PS HN' E. destruct (conv_pair c valid L (st_sk st) x px third VS VX PS PX) as (q & K1 & K2). rewrite K1 in F. cbn [obind] in F. unfold enc_to in E. rewrite K2 in E. cbn [obind] in E. pose proof (round44 c valid L _ _ _ _ HN' E). congruence. }
  destruct (seqb (rq_method req) (B "nip04_encrypt")) eqn:M7.
  { apply seqb_eq in M7. right; right; right; right; right; right; right; left. split; [exact M7|]. apply two_args_ok in H. destruct H as (third & plain & P & F). exists third, plain. split; [exact P|]. intros x px k' VX PX PS KX. destruct (shared_pair (st_sk st) x px third VS VX PS PX) as (q & K1 & K2 & K3). rewrite K1 in F. cbn [obind] in F. assert (k' = q) by congruence. subst k'. apply (round04 c valid L _ _ (d_iv d)); assumption. }
  destruct (seqb (rq_method req) (B "nip04_decrypt")) eqn:M8.
  { apply seqb_eq in M8. right; right; right; right; right; right; right; right. split; [exact M8|]. apply two_args_ok in H. destruct H as (third & text & P & F). exists third, text. split; [exact P|]. intros x px k' iv plain VX PX PS HI' KX E. destruct (shared_pair (st_sk st) x px third VS VX PS PX) as (q & K1 & K2 & K3). rewrite K1 in F. cbn [obind] in F. assert (k' = q) by congruence. subst k'. pose proof (round04 c valid L _ _ _ _ K3 HI' E). congruence. }
  destruct (seqb (rq_method req) (B "ping")) eqn:M9; [apply seqb_eq in M9; right; left; split; [exact M9|congruence]|]. discriminate.
Qed.
Theorem C66_static_results st h e d req resp ev : valid (st_sk st) -> length (d_nonce d) = 32 -> length (d_iv d) = 16 -> fst (handle st h e d) = Ok (req, resp, ev) -> rs_result resp <> [] -> meaning st req (rs_result resp).
Proof.
  intros VS HN HI H HR. apply static_handle_cases in H; [|apply static_run_table]. destruct H as (_ & s & result & err & ct & O & _ & HA & HP & _). rewrite HP in *. unfold reply_of in *. destruct err; [exfalso; apply HR; reflexivity|]. cbn [orb] in *. destruct (match st_auth st with Some _ => _ | None => _ end); [exfalso; apply HR; reflexivity|].
  destruct (negb (empty result)); [|exfalso; apply HR; reflexivity]. cbn [rs_result]. apply (answer_means st (ev_pubkey e) s req d); assumption.
Qed.
(** Every request with a known method that a client encrypts to the signer is answered (with a result or an error), as long as the answer fits. *)
Theorem C66_static_answers st h e d b pb ps req n text : dec_req text = Some req ->
  (forall s result err refused, own c (st_sk st) pb s -> static_answer c st s req d = Ok (AAnswer result err) -> (1 <= len (enc_resp (reply_of (rq_id req) result refused)) <= 65535)%N) -> valid b -> valid (st_sk st) -> public_key c b = Ok pb -> public_key c (st_sk st) = Ok ps ->
  ev_kind e = 24133%Z -> ev_pubkey e = pb -> length n = 32 -> enc_to c b ps n text = Ok (ev_content e) ->
  (exists resp ev, fst (handle st h e d) = Ok (req, resp, ev)) \/
  (exists s, own c (st_sk st) pb s /\ (static_answer c st s req d = Ok AUnknown \/ static_answer c st s req d = Panic)).
Proof.
  intros HD HL VB VS PB PS HK HE HN EN. destruct (conv_pair c valid L (st_sk st) b ps pb VS VB PS PB) as (k & K1 & K2). destruct (shared_pair (st_sk st) b ps pb VS VB PS PB) as (k' & K3 & K4 & _).
  unfold static_handle. rewrite HK. cbn [Z.eqb Pos.eqb negb]. destruct (get_or_create c (st_sk st) (run st h) (ev_pubkey e)) as [os t'] eqn:EG. destruct (get_or_create_spec c _ _ _ _ _ (static_run_table c dec_req enc_resp st h) EG) as (_ & HO & HN2). cbn [fst].
  destruct os as [s| |]; [|exfalso; destruct (HN2 ltac:(discriminate)) as [Q|[Q|Q]]; rewrite HE in *; (eapply Q; eassumption)..]. specialize (HO s eq_refl). cbn [obind]. pose proof HO as (O1 & O2 & O3). rewrite HE in *.
  assert (PR : parse_request c dec_req s (ev_content e) = Ok req). { unfold enc_to in EN. rewrite K2 in EN. cbn [obind] in EN. assert (ss_conv s = k) by congruence. unfold parse_request. rewrite H, (round44 c valid L _ _ _ _ HN EN). cbn [obind]. rewrite HD. reflexivity. }
  rewrite PR. cbn [obind]. destruct (static_answer c st s req d) as [a| |] eqn:EA; cbn [obind].
  - destruct a as [|result err]; [right; exists s; auto|]. left. unfold make_response. set (r := if err || _ then _ else _). destruct (enc44_ok c (enc_resp r) (ss_conv s) (d_reply d) (HL s result err _ HO EA)) as [ct EC]. rewrite EC. cbn [obind fst snd].
    destruct (sign_ok c valid L (st_sk st) (mkEvent [] [] (d_now d) 24133 [[B "p"; pb]] ct []) VS) as [ev ES]. rewrite ES. cbn [obind]. eauto.
  - exfalso. revert EA. unfold static_answer, one_arg, two_args, answer_of. repeat (match goal with |- context [if ?x then _ else _] => destruct x end; try discriminate); repeat (match goal with |- context [match ?x with _ => _ end] => destruct x end; try discriminate).
  - right. exists s. auto.
Qed.
(** A client that encrypts something that is no request, or asks for a method the signer does not know, gets no answer; the caller gets an error and nothing crashes. *)
Definition known_method (m : str) : Prop := In m [B "connect"; B "get_public_key"; B "sign_event"; B "get_relays"; B "nip44_encrypt"; B "nip44_decrypt"; B "nip04_encrypt"; B "nip04_decrypt"; B "ping"].
Theorem C66_static_no_request st h e d b pb ps n text : (dec_req text = None \/ exists req, dec_req text = Some req /\ ~ known_method (rq_method req)) -> valid b -> valid (st_sk st) -> public_key c b = Ok pb -> public_key c (st_sk st) = Ok ps ->
  ev_kind e = 24133%Z -> ev_pubkey e = pb -> length n = 32 -> enc_to c b ps n text = Ok (ev_content e) -> fst (handle st h e d) = Err.
Proof.
  intros HD VB VS PB PS HK HE HN EN. destruct (conv_pair c valid L (st_sk st) b ps pb VS VB PS PB) as (k & K1 & K2). destruct (shared_pair (st_sk st) b ps pb VS VB PS PB) as (k' & K3 & K4 & _).
  unfold static_handle. rewrite HK. cbn [Z.eqb Pos.eqb negb]. destruct (get_or_create c (st_sk st) (run st h) (ev_pubkey e)) as [os t'] eqn:EG. destruct (get_or_create_spec c _ _ _ _ _ (static_run_table c dec_req enc_resp st h) EG) as (_ & HO & HN2). cbn [fst].
  destruct os as [s| |]; [|exfalso; destruct (HN2 ltac:(discriminate)) as [Q|[Q|Q]]; rewrite HE in *; (eapply Q; eassumption)..]. specialize (HO s eq_refl). cbn [obind]. pose proof HO as (O1 & O2 & O3). rewrite HE in *.
  unfold enc_to in EN. rewrite K2 in EN. cbn [obind] in EN. assert (ss_conv s = k) by congruence. unfold parse_request. rewrite H, (round44 c valid L _ _ _ _ HN EN). cbn [obind].
  destruct HD as [HD|(req & HD & HM)]; rewrite HD; cbn [obind]; [reflexivity|]. unfold static_answer.
  repeat match goal with |- context [seqb (rq_method req) ?x] => let E := fresh in destruct (seqb (rq_method req) x) eqn:E; [exfalso; apply HM; apply seqb_eq in E; unfold known_method; rewrite E; cbn; tauto|] end. reflexivity.
Qed.
End Static.
Print Assumptions C66_static_no_request.
Print Assumptions C66_static_authorised.
Print Assumptions C66_static_refusal.
Print Assumptions C66_static_reply.
Print Assumptions C66_static_id_partial.
Print Assumptions C66_static_results.
Print Assumptions C66_static_answers.

(** ** The signer with many keys *)
Section Dynamic.
Context (c : prims) (valid : str -> Prop) (L : lawful c valid) (dec_req : str -> option request) (enc_resp : response -> str) (dy : dynamic).
Notation run h := (dynamic_run c dec_req enc_resp dy h).
Notation handle h e d := (dynamic_handle c dec_req enc_resp dy (run h) e d).
Lemma any_table h : dyn_table c dy (fun _ _ => True) (run h).
Proof. apply dynamic_run_table. auto. Qed.
(** No event is signed and no text encrypted or decrypted unless the authoriser agreed; it never learns the secret. *)
Theorem C66_dynamic_authorised h e d req resp ev : fst (handle h e d) = Ok (req, resp, ev) -> rs_result resp <> [] ->
  (rq_method req = B "sign_event" -> exists j x, rq_params req = [j] /\ decode_event j = Ok x /\ forall f, dy_auth_sign dy = Some f -> f x (ev_pubkey e) [] = true) /\
  (rq_method req = B "nip44_encrypt" \/ rq_method req = B "nip44_decrypt" -> forall f, dy_auth_enc dy = Some f -> f (ev_pubkey e) [] = true).
Proof.
  intros H HR. apply (dynamic_handle_cases c dec_req enc_resp dy (fun _ _ => True)) in H; [|auto|apply any_table]. destruct H as (_ & h' & hs & u & s & result & err & ct & _ & _ & _ & _ & _ & _ & HA & HP & _). rewrite HP in HR. unfold reply_of in HR. destruct err; [exfalso; apply HR; reflexivity|].
  split.
  - intro M. unfold dynamic_answer in HA. rewrite M in HA. cbn [seqb] in HA. change (seqb (B "sign_event") (B "connect")) with false in HA. change (seqb (B "sign_event") (B "get_public_key")) with false in HA. rewrite seqb_refl in HA. cbv iota in HA.
    apply one_arg_ok in HA. destruct HA as (j & J1 & J2). exists j. destruct (decode_event j) as [x| |]; cbn [obind] in J2; [|discriminate..]. exists x. split; [exact J1|]. split; [reflexivity|]. intros f HF. rewrite HF in J2. destruct (f x (ev_pubkey e) []); [reflexivity|discriminate].
  - intros M f HF. unfold dynamic_answer in HA. rewrite HF in HA. destruct M as [M|M]; rewrite M in HA; [change (seqb (B "nip44_encrypt") (B "connect")) with false in HA; change (seqb (B "nip44_encrypt") (B "get_public_key")) with false in HA; change (seqb (B "nip44_encrypt") (B "sign_event")) with false in HA; change (seqb (B "nip44_encrypt") (B "get_relays")) with false in HA|
      change (seqb (B "nip44_decrypt") (B "connect")) with false in HA; change (seqb (B "nip44_decrypt") (B "get_public_key")) with false in HA; change (seqb (B "nip44_decrypt") (B "sign_event")) with false in HA; change (seqb (B "nip44_decrypt") (B "get_relays")) with false in HA; change (seqb (B "nip44_decrypt") (B "nip44_encrypt")) with false in HA]; rewrite seqb_refl in HA; cbv iota in HA; apply two_args_ok in HA; destruct HA as (a & b & _ & F); destruct (f (ev_pubkey e) []); [reflexivity|discriminate|reflexivity|discriminate].
Qed.
(** The keyer given for handler [h] works with the secret key [x]. *)
Definition works_with (u : ukeyer) (x : str) : Prop := uk_pub u = public_key c x /\ uk_sign u = sign_with c x /\ (exists n, length n = 32 /\ forall plain to, uk_enc u plain to = enc_to c x to n plain) /\ (forall text from, uk_dec u text from = dec_from c x from text).
(** Whatever came before: every reply is of the right kind, addressed to the requester and signed with the key of the handler that was addressed; signing, encrypting and decrypting use the key of that handler's user. *)
Theorem C66_dynamic_reply h e d req resp ev : fst (handle h e d) = Ok (req, resp, ev) ->
  exists hd hs u, addressed e hd /\ dy_secret dy hd = Ok hs /\ dy_user dy hd = Ok u /\ public_key c hs = Ok (ev_pubkey ev) /\ sig_ok c ev = Ok true /\ ev_id ev = id_of c ev /\ ev_kind ev = 24133%Z /\ ev_tags ev = [[B "p"; ev_pubkey e]] /\
  forall x px, works_with u x -> valid x -> public_key c x = Ok px -> rs_result resp <> [] ->
   (rq_method req = B "sign_event" -> exists j a a', rq_params req = [j] /\ decode_event j = Ok a /\ rs_result resp = encode_event a' /\ sig_ok c a' = Ok true /\ ev_id a' = id_of c a' /\ ev_pubkey a' = px /\
     ev_content a' = ev_content a /\ ev_kind a' = ev_kind a /\ ev_tags a' = ev_tags a /\ ev_created_at a' = ev_created_at a) /\
   (rq_method req = B "nip44_encrypt" -> exists third plain, rq_params req = [third; plain] /\ forall y, valid y -> public_key c y = Ok third -> dec_from c y px (rs_result resp) = Ok plain) /\
   (rq_method req = B "nip44_decrypt" -> exists third text, rq_params req = [third; text] /\ forall y n plain, valid y -> public_key c y = Ok third -> length n = 32 -> enc_to c y px n plain = Ok text -> rs_result resp = plain).
Proof.
  intros H. apply (dynamic_handle_cases c dec_req enc_resp dy (fun _ _ => True)) in H; [|auto|apply any_table]. destruct H as (_ & hd & hs & u & s & result & err & ct & AD & _ & E1 & E2 & _ & _ & HA & HP & _ & HS). destruct (signed c valid L _ _ _ HS) as (A & B & C & D & E & F & G). cbn [ev_content ev_kind ev_tags] in *.
  exists hd, hs, u. repeat (split; [assumption|]). intros x px (W1 & W2 & (n & W3 & W4) & W5) VX PX HR. rewrite HP in HR |- *. unfold reply_of in *. destruct err; [exfalso; apply HR; reflexivity|]. destruct (negb (empty result)); [|exfalso; apply HR; reflexivity]. cbn [rs_result] in *.
  unfold dynamic_answer in HA. split; [|split]; intro M; rewrite M in HA.
  - change (seqb (Base.B "sign_event") (Base.B "connect")) with false in HA. change (seqb (Base.B "sign_event") (Base.B "get_public_key")) with false in HA. rewrite seqb_refl in HA. cbv iota in HA. apply one_arg_ok in HA. destruct HA as (j & J1 & J2).
    destruct (decode_event j) as [a| |] eqn:EJ; cbn [obind] in J2; [|discriminate..]. destruct (match dy_auth_sign dy with Some f => _ | None => _ end); [|discriminate]. rewrite W2 in J2. destruct (sign_with c x a) as [a'| |] eqn:ES; cbn [obind] in J2; [|discriminate..]. destruct (signed c valid L _ _ _ ES) as (A1 & A2 & A3 & A4 & A5 & A6 & A7).
    exists j, a, a'. repeat split; try assumption; congruence.
  - change (seqb (Base.B "nip44_encrypt") (Base.B "connect")) with false in HA; change (seqb (Base.B "nip44_encrypt") (Base.B "get_public_key")) with false in HA; change (seqb (Base.B "nip44_encrypt") (Base.B "sign_event")) with false in HA; change (seqb (Base.B "nip44_encrypt") (Base.B "get_relays")) with false in HA. rewrite seqb_refl in HA. cbv iota in HA. apply two_args_ok in HA. destruct HA as (third & plain & P & Q).
    exists third, plain. split; [exact P|]. intros y VY PY. destruct (match dy_auth_enc dy with Some f => _ | None => _ end); [|discriminate]. rewrite W4 in Q. unfold enc_to in Q. destruct (conv_pair c valid L x y px third VX VY PX PY) as (q & K1 & K2). rewrite K1 in Q. cbn [obind] in Q. unfold dec_from. rewrite K2. cbn [obind]. apply (round44 c valid L _ _ n); assumption.
  - change (seqb (Base.B "nip44_decrypt") (Base.B "connect")) with false in HA; change (seqb (Base.B "nip44_decrypt") (Base.B "get_public_key")) with false in HA; change (seqb (Base.B "nip44_decrypt") (Base.B "sign_event")) with false in HA; change (seqb (Base.B "nip44_decrypt") (Base.B "get_relays")) with false in HA; change (seqb (Base.B "nip44_decrypt") (Base.B "nip44_encrypt")) with false in HA. rewrite seqb_refl in HA. cbv iota in HA. apply two_args_ok in HA. destruct HA as (third & text & P & Q).
    exists third, text. split; [exact P|]. intros y n' plain VY PY HN EN. destruct (match dy_auth_enc dy with Some f => _ | None => _ end); [|discriminate]. rewrite W5 in Q. unfold dec_from in Q. destruct (conv_pair c valid L x y px third VX VY PX PY) as (q & K1 & K2). rewrite K1 in Q. cbn [obind] in Q. unfold enc_to in EN. rewrite K2 in EN. cbn [obind] in EN. pose proof (round44 c valid L _ _ _ _ HN EN). congruence.
Qed.
(** What is answered without any key: "ack" to a connection, "pong" to a ping, an error or "{}" to a question for relays, and nothing at all (an error for the caller) to a method that is not known, such as those of NIP-04. *)
Theorem C66_dynamic_plain h e d req resp ev : fst (handle h e d) = Ok (req, resp, ev) ->
  In (rq_method req) [B "connect"; B "get_public_key"; B "sign_event"; B "get_relays"; B "nip44_encrypt"; B "nip44_decrypt"; B "ping"] /\
  (rq_method req = B "connect" -> resp = mkResp (rq_id req) false (B "ack")) /\ (rq_method req = B "ping" -> resp = mkResp (rq_id req) false (B "pong")) /\ (rq_method req = B "get_relays" -> resp = mkResp (rq_id req) false (B "{}")).
Proof.
  intros H. apply (dynamic_handle_cases c dec_req enc_resp dy (fun _ _ => True)) in H; [|auto|apply any_table]. destruct H as (_ & hd & hs & u & s & result & err & ct & AD & _ & E1 & E2 & _ & _ & HA & HP & _). subst resp.
  split; [|split; [|split]]; [|intro M..].
  - unfold dynamic_answer in HA. cbv zeta in HA. repeat match type of HA with context [if seqb (rq_method req) ?x then Ok _ else _] => let E := fresh in destruct (seqb (rq_method req) x) eqn:E; [apply seqb_eq in E; rewrite E; cbn; tauto|] | context [if seqb (rq_method req) ?x then one_arg _ _ else _] => let E := fresh in destruct (seqb (rq_method req) x) eqn:E; [apply seqb_eq in E; rewrite E; cbn; tauto|]
      | context [if seqb (rq_method req) ?x then two_args _ _ _ else _] => let E := fresh in destruct (seqb (rq_method req) x) eqn:E; [apply seqb_eq in E; rewrite E; cbn; tauto|] | context [if seqb (rq_method req) ?x then match dy_relays dy with _ => _ end else _] => let E := fresh in destruct (seqb (rq_method req) x) eqn:E; [apply seqb_eq in E; rewrite E; cbn; tauto|] end. discriminate.
  - unfold dynamic_answer in HA. rewrite M in HA. rewrite seqb_refl in HA. cbv iota zeta in HA. assert (result = B "ack" /\ err = false) as (-> & ->) by (split; congruence). reflexivity.
  - unfold dynamic_answer in HA. rewrite M in HA. cbv iota beta zeta in HA. repeat match type of HA with context [seqb (B "ping") ?x] => let b := eval vm_compute in (seqb (B "ping") x) in change (seqb (B "ping") x) with b in HA end. cbv iota in HA. assert (result = B "pong" /\ err = false) as (-> & ->) by (split; congruence). reflexivity.
  - unfold dynamic_answer in HA. rewrite M in HA. cbv iota beta zeta in HA. repeat match type of HA with context [seqb (B "get_relays") ?x] => let b := eval vm_compute in (seqb (B "get_relays") x) in change (seqb (B "get_relays") x) with b in HA end. cbv iota in HA. destruct (dy_relays dy); [|discriminate]. assert (result = B "{}" /\ err = false) as (-> & ->) by (split; congruence). reflexivity.
Qed.
(** The public key and the readability of the reply: only for a client that speaks to one handler. *)
Theorem C66_dynamic_one_handler_partial h e d req resp ev hd hs u b : (forall e' d' h', In (e', d') h -> ev_pubkey e' = ev_pubkey e -> addressed e' h' -> h' = hd) -> addressed e hd -> dy_secret dy hd = Ok hs -> dy_user dy hd = Ok u ->
  valid b -> valid hs -> public_key c b = Ok (ev_pubkey e) -> length (d_reply d) = 32 -> fst (handle h e d) = Ok (req, resp, ev) ->
  dec_from c b (ev_pubkey ev) (ev_content ev) = Ok (enc_resp resp) /\ (rq_method req = B "get_public_key" -> rs_error resp = false /\ (rs_result resp = [] \/ uk_pub u = Ok (rs_result resp))).
Proof.
  intros HH AD E1 E2 VB VS PB HN H. apply (dynamic_handle_cases c dec_req enc_resp dy (fun k h' => k = ev_pubkey e -> h' = hd)) in H.
  - destruct H as (_ & hd' & hs' & u' & s & result & err & ct & AD' & _ & E1' & E2' & (h' & Q & hs2 & u2 & M1 & M2 & M3 & M4 & M5) & _ & HA & HP & HE & HS). specialize (Q eq_refl). subst h'. assert (hd' = hd) by (destruct AD as (r & A1), AD' as (r' & A2); congruence). subst hd'.
    assert (hs' = hs /\ hs2 = hs /\ u' = u /\ u2 = u) as (-> & -> & -> & ->) by (repeat split; congruence). destruct (signed c valid L _ _ _ HS) as (A & _ & _ & D & _ & F & G). cbn [ev_content] in D. split.
    + destruct (conv_pair c valid L hs b (ev_pubkey ev) (ev_pubkey e) VS VB A PB) as (k & K1 & K2). unfold dec_from. rewrite K2, D. cbn [obind]. assert (k = ss_conv s) by congruence. subst k. apply (round44 c valid L _ _ (d_reply d)); assumption.
    + intro M. unfold dynamic_answer in HA. rewrite M in HA. change (seqb (B "get_public_key") (B "connect")) with false in HA. rewrite seqb_refl in HA. cbv iota in HA. assert (result = ss_pub s /\ err = false) as [-> ->] by (split; congruence). rewrite HP. unfold reply_of. destruct (negb (empty (ss_pub s))); cbn; auto.
  - intros h' A' _. destruct AD as (r & A1), A' as (r' & A2). congruence.
  - apply dynamic_run_table. intros e' d' h' HI A' HE. apply (HH e' d' h'); auto.
Qed.
End Dynamic.
Print Assumptions C66_dynamic_authorised.
Print Assumptions C66_dynamic_reply.
Print Assumptions C66_dynamic_one_handler_partial.

(** ** A small world: requests are the method, then the parameters, one per line *)
Definition newline : ascii := byte_of 10.
Fixpoint lines (s : str) (cur : str) : list str := match s with [] => [rev cur] | x :: r => if ceqb x newline then rev cur :: lines r [] else lines r (x :: cur) end.
Definition toy_req (t : str) : option request := match lines t [] with m :: ps => Some (mkReq (B "7") m ps) | [] => None end.
Definition toy_resp (r : response) : str := rs_id r ++ [newline] ++ (if rs_error r then B "error" else B "ok") ++ [newline] ++ rs_result r.
Definition carol : str := hex_encode (repeat "c"%char 32).
Definition draw1 : draws := mkD nonce1 nonce1 (repeat "i"%char 16) 100.
Definition ask (from to text : str) : event := match enc_to toy from to nonce1 text with Ok ct => mkEvent [] from 1 24133 [[B "p"; to]] ct [] | _ => zero_event end.
(** The answer as the requester reads it. *)
Definition read_by (from to : str) (r : outcome (request * response * event) * table) : outcome str := obind (fst r) (fun x => dec_from toy from to (ev_content (snd x))).
Definition told (id : string) (ok : string) (r : str) : str := B id ++ [newline] ++ B ok ++ [newline] ++ r.
Definition one : static := mkStatic alice (B "{}") (Some (fun harmless from secret => harmless || seqb from bob)).
Notation one_ask from text := (read_by from alice (static_handle toy toy_req toy_resp one (mkTable [] []) (ask from alice text) draw1)).
Example C66_static_example : one_ask bob (B "ping") = Ok (told "7" "ok" (B "pong")) /\ one_ask bob (B "get_public_key") = Ok (told "7" "ok" alice) /\ one_ask carol (B "ping") = Ok (told "7" "ok" (B "pong")) /\
  one_ask carol (B "nip44_encrypt" ++ newline :: bob ++ newline :: B "x") = Ok (told "7" "error" []) /\ one_ask bob (B "frobnicate") = Err.
Proof. vm_compute. repeat split. Qed.
Example C66_static_decrypts : match enc_to toy carol alice nonce1 (B "hello") with Ok t => one_ask bob (B "nip44_decrypt" ++ newline :: carol ++ newline :: t) = Ok (told "7" "ok" (B "hello")) | _ => False end.
Proof. vm_compute. reflexivity. Qed.
(** A request whose answer is the empty text is answered without its id. *)
Theorem C66_empty_answer_refuted : exists text, one_ask bob text = Ok (told "" "ok" []).
Proof.
  destruct (toy_conv carol alice) as [k| |] eqn:E; [|vm_compute in E; discriminate..]. pose (t := match encrypt04 toy [] k (repeat "i"%char 16) with Ok x => x | _ => [] end).
  exists (B "nip04_decrypt" ++ newline :: carol ++ newline :: t). subst t. vm_compute in E. injection E as <-. vm_compute. reflexivity.
Qed.
(** A request of 132 line feeds takes the signer down, whoever sends it. *)
Theorem C66_crash_refuted : exists ct, forall c dec_req enc_resp st e d, ev_kind e = 24133%Z -> ev_content e = ct -> (exists pk sh ck, public_key c (st_sk st) = Ok pk /\ p_shared c (ev_pubkey e) (st_sk st) = Ok sh /\ p_conv c (ev_pubkey e) (st_sk st) = Ok ck) ->
  fst (static_handle c dec_req enc_resp st (mkTable [] []) e d) = Panic.
Proof.
  destruct C31_nip44_no_crash_refuted as [p HP]. exists p. intros c dec_req enc_resp st e d HK HE (pk & sh & ck & A & B' & C). unfold static_handle. rewrite HK. cbn [Z.eqb Pos.eqb negb]. unfold get_or_create. change (get_session (mkTable [] []) (ev_pubkey e)) with (@Ok (option session) None). cbv iota.
  rewrite A, B', C. cbn [obind fst]. unfold parse_request. rewrite HE. unfold decrypt44. rewrite HP. reflexivity.
Qed.
(** A public key with one hexadecimal digit too many is accepted as one of the arguments. *)
Theorem C66_odd_key_refuted : forall c pk x, pub_ok c pk = true -> length pk = 64 -> is_lower_hex_char x = true -> pub_ok c (pk ++ [x]) = true.
Proof.
  intros c pk x. unfold pub_ok, valid_pubkey. rewrite !andb_true_iff. intros [A H] HL HX. split; [rewrite forallb_app, A; cbn; rewrite HX; reflexivity|].
  assert (G : forall n s, length s = 2 * n -> hex_prefix (s ++ [x]) = hex_prefix s). { induction n as [|n IH]; intros s HS; [destruct s; [reflexivity|discriminate]|]. destruct s as [|a [|b s]]; [discriminate|cbn in HS; lia|]. cbn [app hex_prefix]. rewrite IH by (cbn in HS; lia). reflexivity. }
  rewrite (G 32); assumption.
Qed.
Print Assumptions C66_empty_answer_refuted.
Print Assumptions C66_crash_refuted.
Print Assumptions C66_odd_key_refuted.

(** Two handlers, alice for the user once, carol for the user carol. *)
Definition keyer_of (x : str) : ukeyer := mkUK (public_key toy x) (sign_with toy x) (fun plain to => enc_to toy x to nonce1 plain) (fun text from => dec_from toy x from text).
Definition two : dynamic := mkDyn (fun h => if seqb h alice then Ok alice else if seqb h carol then Ok carol else Err) (fun h => if seqb h alice then Ok (keyer_of once) else if seqb h carol then Ok (keyer_of carol) else Err)
  None (Some (fun from secret => seqb secret (B "s3cret"))) (Some (fun _ => B "[]")).
Notation two_run h := (dynamic_run toy toy_req toy_resp two (map (fun e => (e, draw1)) h)).
Notation two_ask h e to := (read_by bob to (dynamic_handle toy toy_req toy_resp two (two_run h) e draw1)).
Example C66_dynamic_example : two_ask [] (ask bob alice (B "get_public_key")) alice = Ok (told "7" "ok" once) /\ two_ask [] (ask bob carol (B "get_public_key")) carol = Ok (told "7" "ok" carol).
Proof. vm_compute. auto. Qed.
(** Sessions are kept by client only: once a client has spoken to one handler, its requests to another one fail, and a request under the first handler's key is answered by the second with the first user's public key. *)
Theorem C66_dynamic_second_handler_refuted : let h := [ask bob alice (B "ping")] in
  two_ask [] (ask bob carol (B "get_public_key")) carol = Ok (told "7" "ok" carol) /\ two_ask h (ask bob carol (B "get_public_key")) carol = Err /\
  exists e req resp ev, fst (dynamic_handle toy toy_req toy_resp two (two_run h) e draw1) = Ok (req, resp, ev) /\ addressed e carol /\ ev_pubkey ev = carol /\ rs_result resp = once.
Proof.
  split; [vm_compute; reflexivity|]. split; [vm_compute; reflexivity|].
  exists (match enc_to toy bob alice nonce1 (B "get_public_key") with Ok ct => mkEvent [] bob 1 24133 [[B "p"; carol]] ct [] | _ => zero_event end).
  match goal with |- exists req resp ev, fst ?x = _ /\ _ => destruct (fst x) as [[[req resp] ev]| |] eqn:E; [|vm_compute in E; discriminate..] end. exists req, resp, ev. split; [reflexivity|]. vm_compute in E. injection E as <- <- <-. split; [|split; vm_compute; reflexivity]. exists []. vm_compute. reflexivity.
Qed.
(** The secret a client gives when it connects never reaches the authorisers: an authoriser that wants it refuses everybody. *)
Theorem C66_dynamic_secret_refuted c dec_req enc_resp dy h e d req resp ev want : dy_auth_enc dy = Some (fun _ secret => seqb secret want) -> want <> [] -> fst (dynamic_handle c dec_req enc_resp dy (dynamic_run c dec_req enc_resp dy h) e d) = Ok (req, resp, ev) ->
  rq_method req = B "nip44_encrypt" \/ rq_method req = B "nip44_decrypt" -> rs_result resp = [].
Proof.
  intros HA HW H M. destruct (rs_result resp) as [|x l] eqn:E; [reflexivity|]. exfalso. destruct (C66_dynamic_authorised c dec_req enc_resp dy h e d req resp ev H ltac:(rewrite E; discriminate)) as [_ G]. specialize (G M _ HA). cbn beta in G. destruct want; [congruence|]. discriminate.
Qed.
Example C66_dynamic_secret_example : two_ask [ask bob alice (B "connect" ++ newline :: alice ++ newline :: B "s3cret")] (ask bob alice (B "nip44_encrypt" ++ newline :: carol ++ newline :: B "x")) alice = Ok (told "7" "error" []).
Proof. vm_compute. reflexivity. Qed.
(** The check of the relays callback is the wrong way round: without one the request crashes, with one it is ignored. *)
Theorem C66_dynamic_relays_refuted c dy u s from req : rq_method req = B "get_relays" -> dynamic_answer c dy u s from req = match dy_relays dy with None => Panic | Some _ => Ok (AAnswer (B "{}") false) end.
Proof. intro M. unfold dynamic_answer. rewrite M. reflexivity. Qed.
Print Assumptions C66_dynamic_second_handler_refuted.
Print Assumptions C66_dynamic_secret_refuted.
Print Assumptions C66_dynamic_relays_refuted.

(** ** The client's side *)
(** An event signed remotely has its own id and a good signature. *)
Theorem C66_client_checks c valid (L : lawful c valid) rpc e e' : client_sign c rpc e false = Ok e' -> ev_id e' = id_of c e' /\ sig_ok c e' = Ok true.
Proof.
  unfold client_sign. destruct (rpc _ _) as [j| |]; cbn [obind]; [|discriminate..]. destruct (decode_event_into e j) as [x| |]; cbn [obind]; [|discriminate..]. destruct (check_id (p_sha c) x) eqn:E; cbn [negb]; [|discriminate]. destruct (sig_ok c x) as [[]| |] eqn:E2; try discriminate. intro H. assert (x = e') by congruence. subst x. split; [|assumption]. apply check_id_spec in E; [exact E|exact (l_sha c valid L)].
Qed.
Lemma signed_leaves c valid (L : lawful c valid) sk e e' : sized c sk -> sign_with c sk e = Ok e' -> forall e0, leaves e0 e'.
Proof.
  unfold sized, sign_with, sign. intros HZ H e0. destruct (hex_decode sk) as [s|]; [|discriminate]. destruct (HZ s eq_refl) as [HP HS]. destruct (p_schnorr c s _) as [sg|] eqn:E; [|discriminate]. apply HS in E; [|apply (l_sha c valid L)]. match type of H with Ok ?x = Ok _ => assert (x = e') as <- by congruence end. clear H.
  assert (G : forall x n, length x = S n -> hex_encode x = [] -> False) by (intros [|a x] n Q R; [discriminate|]; cbn in R; discriminate).
  unfold leaves. cbn [ev_id ev_pubkey ev_sig]. repeat split; intro Q; exfalso.
  - refine (G _ 31 _ Q). apply (l_sha c valid L).
  - refine (G _ 31 _ Q). rewrite skipn_length, HP. reflexivity.
  - exact (G _ 63 E Q).
Qed.
(** With this package's own signer at the other end, exactly the event asked for comes back, signed with the signer's key. *)
Theorem C66_client_signs c valid (L : lawful c valid) st s d e : sized c (st_sk st) -> valid (st_sk st) -> text_event e ->
  exists e', client_sign c (static_rpc c st s d) e false = Ok e' /\ public_key c (st_sk st) = Ok (ev_pubkey e') /\ ev_id e' = id_of c e' /\ sig_ok c e' = Ok true /\ ev_content e' = ev_content e /\ ev_kind e' = ev_kind e /\ ev_created_at e' = ev_created_at e /\ ev_tags e' = ev_tags e.
Proof.
  intros HZ V HT. destruct (sign_ok c valid L (st_sk st) e V) as [e' ES]. exists e'. destruct (signed c valid L _ _ _ ES) as (A1 & A2 & A3 & A4 & A5 & A6 & A7). pose proof HT as (T1 & T2 & T3 & T4 & T5 & T6 & T7).
  assert (HT' : text_event e') by (apply (signed_text c (st_sk st) e); assumption).
  split; [|repeat split; assumption]. unfold client_sign, static_rpc, static_answer. cbn [rq_method rq_params]. change (seqb (B "sign_event") (B "connect")) with false. change (seqb (B "sign_event") (B "get_public_key")) with false. rewrite seqb_refl. cbv iota. unfold one_arg. cbn [rq_params].
  rewrite event_round_trip by exact HT. cbn [obind]. rewrite ES. cbn [obind answer_of].
  assert (HL : leaves e e') by (apply (signed_leaves c valid L (st_sk st) e e' HZ ES)).
  rewrite event_round_trip_into by assumption. cbn [obind]. rewrite A3. assert (E : check_id (p_sha c) e' = true) by (apply check_id_spec; [exact (l_sha c valid L)|exact A2]). rewrite E. reflexivity.
Qed.
Example C66_client_example : exists e', client_sign toy (static_rpc toy one (mkSession alice [] []) draw1) rumor1 false = Ok e' /\ ev_pubkey e' = alice /\ ev_content e' = B "hello".
Proof. destruct toy_keys_valid as (V & _). destruct (C66_client_signs toy toy_valid toy_lawful one (mkSession alice [] []) draw1 rumor1 toy_sized V rumor1_text) as (e' & A & P & _ & _ & C & _). exists e'. split; [exact A|]. split; [|exact C]. destruct toy_public as (PA & _). cbn [st_sk one] in P. congruence. Qed.
(** But a signer may answer with any other event: nothing compares it with the one that was asked for. *)
Theorem C66_client_other_event_refuted c valid (L : lawful c valid) sk e e2 e' : sized c sk -> valid sk -> text_event e2 -> sign_with c sk e2 = Ok e' -> client_sign c (fun _ _ => Ok (encode_event e')) e false = Ok e'.
Proof.
  intros HZ V (T1 & T2 & T3 & T4 & T5 & T6 & T7) ES. destruct (signed c valid L _ _ _ ES) as (A1 & A2 & A3 & _). unfold client_sign. cbn [obind]. rewrite event_round_trip_into by (try apply (signed_leaves c valid L sk e2 e' HZ ES); apply (signed_text c sk e2); assumption). cbn [obind]. rewrite A3. assert (E : check_id (p_sha c) e' = true) by (apply check_id_spec; [exact (l_sha c valid L)|exact A2]). rewrite E. reflexivity.
Qed.
Print Assumptions C66_client_checks.
Print Assumptions C66_client_signs.
Print Assumptions C66_client_other_event_refuted.

(** * C68: the keyer that asks a remote signer *)
Lemma bunker_form c st s d plain to ct : bunker_encrypt (static_rpc c st s d) plain to = Ok ct -> exists k, p_conv c to (st_sk st) = Ok k /\ encrypt44 c plain k (d_nonce d) = Ok ct.
Proof.
  unfold bunker_encrypt, static_rpc. destruct (static_answer c st s _ d) as [a| |] eqn:E; cbn [obind]; [|discriminate..]. destruct a as [|r []]; try discriminate. intro H. assert (r = ct) by congruence. subst r.
  unfold static_answer in E. cbn [rq_method] in E. change (seqb (B "nip44_encrypt") (B "connect")) with false in E. change (seqb (B "nip44_encrypt") (B "get_public_key")) with false in E. change (seqb (B "nip44_encrypt") (B "sign_event")) with false in E. change (seqb (B "nip44_encrypt") (B "get_relays")) with false in E. rewrite seqb_refl in E. cbv iota in E.
  apply two_args_ok in E. destruct E as (a & b & Q & F). cbn [rq_params] in Q. injection Q as <- <-. destruct (p_conv c to (st_sk st)) as [k| |]; cbn [obind] in F; [|discriminate..]. exists k. auto.
Qed.
Theorem C68_bunker_encrypts c valid (L : lawful c valid) st s d plain to ct x ps : valid (st_sk st) -> valid x -> length (d_nonce d) = 32 -> public_key c x = Ok to -> public_key c (st_sk st) = Ok ps -> bunker_encrypt (static_rpc c st s d) plain to = Ok ct ->
  dec_from c x ps ct = Ok plain.
Proof.
  intros VS VX HN PX PS H. destruct (bunker_form _ _ _ _ _ _ _ H) as (k & K & F). destruct (conv_pair c valid L (st_sk st) x ps to VS VX PS PX) as (k' & K1 & K2). assert (k' = k) by congruence. subst k'. unfold dec_from. rewrite K2. cbn [obind]. apply (round44 c valid L _ _ (d_nonce d)); assumption.
Qed.
(** Decrypting asks the signer to encrypt: the text never comes back. *)
Theorem C68_bunker_never_decrypts_refuted c valid (L : lawful c valid) st s d n plain ps from ct x : length (d_nonce d) = 32 -> length n = 32 -> enc_to c x ps n plain = Ok ct ->
  bunker_decrypt (static_rpc c st s d) ct from <> Ok plain.
Proof.
  intros HN HN2 HE H. destruct (bunker_form c st s d ct from plain H) as (k & _ & F). unfold enc_to in HE. destruct (p_conv c ps x) as [k2| |]; cbn [obind] in HE; [|discriminate..].
  assert (G : forall m k n p, length n = 32 -> encrypt44 c m k n = Ok p -> (len m < len p)%N). { intros m k1 n1 p H1 H2. destruct (nip44_len c m k1 n1 p (l_chacha_len c valid L) (l_hmac c valid L) H1 H2) as [Q _]. rewrite Q. pose proof (pad_ge (len m)). pose proof (N.div_mod (67 + calc_padding (len m) + 2) 3 ltac:(discriminate)). pose proof (N.mod_lt (67 + calc_padding (len m) + 2) 3 ltac:(discriminate)). lia. }
  pose proof (G _ _ _ _ HN2 HE). pose proof (G _ _ _ _ HN F). lia.
Qed.
Example C68_bunker_example : match enc_to toy bob alice nonce1 (B "hello") with Ok ct => exists r, bunker_decrypt (static_rpc toy one (mkSession alice [] []) draw1) ct bob = Ok r /\ r <> B "hello" | _ => False end.
Proof. destruct (enc_to toy bob alice nonce1 (B "hello")) as [ct| |] eqn:E; [|vm_compute in E; discriminate..]. destruct (bunker_decrypt (static_rpc toy one (mkSession alice [] []) draw1) ct bob) as [r| |] eqn:D; [|vm_compute in E; injection E as <-; vm_compute in D; discriminate..].
  exists r. split; [reflexivity|]. intros ->. exact (C68_bunker_never_decrypts_refuted toy toy_valid toy_lawful one (mkSession alice [] []) draw1 nonce1 (B "hello") alice bob ct bob eq_refl eq_refl E D).
Qed.
Print Assumptions C68_bunker_encrypts.
Print Assumptions C68_bunker_never_decrypts_refuted.

Print Assumptions C66_dynamic_plain.
