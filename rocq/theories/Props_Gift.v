(** C65, C68, C86, C87: gift wraps, keyers and private messages. *)
From Verif Require Import Base JsonSpec EventModel EventProofs JLexModel JLexProofs JsonEventProofs CipherModel CipherProofs CryptoModel CryptoProofs Bech32Model Bech32Proofs Nip19Model Nip19Proofs PowProofs GiftModel GiftProofs Props_Cipher Props_Nip19.
Import ListNotations.
Open Scope nat_scope.

Section Gift.
Context (c : prims) (valid : str -> Prop) (L : lawful c valid).
(** How the holder of a secret key encrypts to, and decrypts from, another key with nip44. *)
Definition enc_to (sk other nonce m : str) : outcome str := obind (p_conv c other sk) (fun k => encrypt44 c m k nonce).
Definition dec_from (sk other p : str) : outcome str := obind (p_conv c other sk) (fun k => decrypt44 c p k).
(** [r] is the rumor [e] as its author [pk] wrote it: same time, kind, tags and content, no signature, the id that goes with it. *)
Definition rumor_of (e : event) (pk : str) (r : event) : Prop :=
  ev_pubkey r = pk /\ ev_created_at r = ev_created_at e /\ ev_kind r = ev_kind e /\ ev_tags r = ev_tags e /\ ev_content r = ev_content e /\ ev_sig r = [] /\ ev_id r = id_of c r.
Lemma authored_rumor e pk : rumor_of e pk (authored c (unsigned e) pk).
Proof. unfold rumor_of, authored, unsigned. cbn. repeat split. Qed.

(** The recipient gets the rumor back, with the sender as author, whatever [modify] did to the wrap apart from its content. *)
Theorem C65_round_trip a b nk pa pb rumor modify t1 t2 n nonce gw : valid a -> valid b -> valid nk -> public_key c a = Ok pa -> public_key c b = Ok pb ->
  text_event rumor -> length n = 32 -> length nonce = 32 -> int64 t1 -> (forall e, ev_content (modify e) = ev_content e) ->
  gift_wrap c rumor pb (enc_to a pb n) (sign_with c a) modify t1 t2 nk nonce = Ok gw ->
  exists r, gift_unwrap c gw (dec_from b) = Ok r /\ rumor_of rumor pa r.
Proof.
  intros VA VB VN PA PB TR HN HN2 HT HM H. exists (authored c (unsigned rumor) pa). split; [|apply authored_rumor].
  apply (wrap_unwrap c valid L a b nk pa pb rumor (enc_to a pb n) modify t1 t2 nonce gw); auto.
  - unfold enc_to. intros m p E. destruct (p_conv c pb a) as [k| |]; [|discriminate..]. exists k, n. auto.
  - unfold dec_from. intros o p k E. rewrite E. reflexivity.
Qed.
(** A wrap is made exactly when the rumor's text has at most 40960 bytes (nip44 alone takes 65535): the seal's text must fit as well. *)
Theorem C65_size a nk pb rumor t1 t2 n nonce k k2 : sized c a ->
  valid a -> valid nk -> p_conv c pb a = Ok k -> p_conv c pb nk = Ok k2 -> int64 t1 -> length n = 32 ->
  ((exists gw, gift_wrap c rumor pb (enc_to a pb n) (sign_with c a) (fun e => e) t1 t2 nk nonce = Ok gw) <-> (len (encode_event (unsigned rumor)) <= 40960)%N).
Proof.
  intros HZ VA VN K1 K2 HT HN. set (m := encode_event (unsigned rumor)). assert (P : forall e, (1 <= len (encode_event e))%N) by (intro e; unfold encode_event, len; cbn; lia).
  assert (SL : forall ct seal, enc_to a pb n m = Ok ct -> sign_with c a (mkEvent [] [] t1 13 [] ct []) = Ok seal -> let q := (4 * ((67 + calc_padding (len m) + 2) / 3))%N in (q <= len (encode_event seal) <= q + 600)%N).
  { intros ct seal E1 E2. unfold enc_to in E1. rewrite K1 in E1. cbn [obind] in E1. destruct (nip44_len c m k n ct (l_chacha_len c valid L) (l_hmac c valid L) HN E1) as [Q1 Q2]. cbv zeta. rewrite <- Q1. apply (seal_len c a t1 13 ct seal); auto; [apply (l_sha c valid L)|vm_compute; split; discriminate]. }
  split.
  - intros [gw H]. apply gift_cases in H. destruct H as (ct & seal & ck & sct & A & B & C & D & E). specialize (SL ct seal A B). cbv zeta in SL.
    destruct (N.leb_spec (len m) 40960) as [Q|Q]; [exact Q|exfalso]. assert (R : (49152 <= calc_padding (len m))%N) by (transitivity (calc_padding 40961); [vm_compute; discriminate|apply pad_mono; lia]).
    assert (65628 <= 4 * ((67 + calc_padding (len m) + 2) / 3))%N. { transitivity (4 * (49221 / 3))%N; [vm_compute; discriminate|]. apply N.mul_le_mono_l. apply N.div_le_mono; lia. }
    unfold encrypt44 in D. rewrite C28_other_lengths_refused in D; [discriminate|]. right. lia.
  - intro Q. unfold gift_wrap. fold (unsigned rumor). fold m. destruct (enc44_ok c m k n) as [ct E1]; [specialize (P (unsigned rumor)); fold m in P; lia|]. assert (E : enc_to a pb n m = Ok ct) by (unfold enc_to; rewrite K1; exact E1).
    rewrite E. cbn [obind]. destruct (sign_ok c valid L a (mkEvent [] [] t1 13 [] ct []) VA) as [seal E2]. rewrite E2. cbn [obind]. rewrite K2. cbn [obind]. specialize (SL ct seal E E2). cbv zeta in SL.
    assert (R : (calc_padding (len m) <= 40960)%N) by (transitivity (calc_padding 40960); [apply pad_mono; lia|vm_compute; discriminate]).
    assert (4 * ((67 + calc_padding (len m) + 2) / 3) <= 54704)%N. { transitivity (4 * (41029 / 3))%N; [|vm_compute; discriminate]. apply N.mul_le_mono_l. apply N.div_le_mono; lia. }
    destruct (enc44_ok c (encode_event seal) k2 nonce) as [sct E3]; [specialize (P seal); lia|]. rewrite E3. cbn [obind]. apply (sign_ok c valid L). exact VN.
Qed.
(** What everybody can see of a wrap: the one-time key, kind, time and recipient, and a ciphertext made with the one-time key; the signature is good. *)
Theorem C65_outside rumor recipient encrypt sign_fn t1 t2 nk nonce gw : gift_wrap c rumor recipient encrypt sign_fn (fun e => e) t1 t2 nk nonce = Ok gw ->
  public_key c nk = Ok (ev_pubkey gw) /\ ev_kind gw = 1059%Z /\ ev_created_at gw = t2 /\ ev_tags gw = [[B "p"; recipient]] /\ sig_ok c gw = Ok true /\ ev_id gw = id_of c gw /\
  exists seal, enc_to nk recipient nonce (encode_event seal) = Ok (ev_content gw).
Proof.
  intro H. apply gift_cases in H. destruct H as (ct & seal & ck & sct & A & B & C & D & E). destruct (signed c valid L _ _ _ E) as (G1 & G2 & G3 & G4 & G5 & G6 & G7). cbn [ev_content ev_kind ev_created_at ev_tags] in *.
  repeat split; try assumption. exists seal. unfold enc_to. rewrite C. cbn [obind]. congruence.
Qed.
(** Inside there is a seal of kind 13 without tags, signed by the sender, around the rumor without its signature. *)
Theorem C65_inside a rumor recipient encrypt t1 t2 nk nonce modify gw : gift_wrap c rumor recipient encrypt (sign_with c a) modify t1 t2 nk nonce = Ok gw ->
  exists seal r, public_key c a = Ok (ev_pubkey seal) /\ sig_ok c seal = Ok true /\ ev_kind seal = 13%Z /\ ev_tags seal = [] /\ ev_created_at seal = t1 /\
    encrypt (encode_event r) = Ok (ev_content seal) /\ ev_sig r = [] /\ ev_content r = ev_content rumor /\ ev_tags r = ev_tags rumor /\ exists sct, enc_to nk recipient nonce (encode_event seal) = Ok sct /\ ev_content gw = ev_content (modify (mkEvent [] [] t2 1059 [[B "p"; recipient]] sct [])).
Proof.
  intro H. apply gift_cases in H. destruct H as (ct & seal & ck & sct & A & B & C & D & E). destruct (signed c valid L _ _ _ B) as (G1 & G2 & G3 & G4 & G5 & G6 & G7). destruct (signed c valid L _ _ _ E) as (_ & _ & _ & F & _). cbn [ev_content ev_kind ev_created_at ev_tags] in *.
  exists seal, (unsigned rumor). repeat split; try assumption; [congruence|]. exists sct. split; [unfold enc_to; rewrite C; exact D|exact F].
Qed.
(** Whoever decrypts: the author of what is unwrapped signed the seal that was inside, and the id is recomputed. *)
Theorem C65_author gw decrypt r : gift_unwrap c gw decrypt = Ok r ->
  exists seal text, decrypt (ev_pubkey gw) (ev_content gw) = Ok text /\ decode_event text = Ok seal /\ sig_ok c seal = Ok true /\ ev_pubkey r = ev_pubkey seal /\ ev_id r = id_of c r /\
    exists text2 inner, decrypt (ev_pubkey seal) (ev_content seal) = Ok text2 /\ decode_event text2 = Ok inner /\ ev_content r = ev_content inner /\ ev_tags r = ev_tags inner /\ ev_kind r = ev_kind inner /\ ev_created_at r = ev_created_at inner.
Proof.
  unfold gift_unwrap. destruct (decrypt _ _) as [text| |] eqn:E1; [|discriminate..]. cbn [obind]. destruct (decode_event text) as [seal| |] eqn:E2; [|discriminate..]. cbn [obind].
  destruct (sig_ok c seal) as [[]| |] eqn:E3; try discriminate. destruct (decrypt (ev_pubkey seal) _) as [t2| |] eqn:E4; [|discriminate..]. cbn [obind]. destruct (decode_event t2) as [inner| |] eqn:E5; [|discriminate..]. cbn [obind].
  intro H. injection H as <-. exists seal, text. repeat split; try assumption. exists t2, inner. repeat split; assumption.
Qed.
Theorem C65_bad_seal_rejected gw decrypt text seal : decrypt (ev_pubkey gw) (ev_content gw) = Ok text -> decode_event text = Ok seal -> sig_ok c seal <> Ok true -> gift_unwrap c gw decrypt = Err \/ sig_ok c seal = Panic.
Proof. intros A B H. unfold gift_unwrap. rewrite A. cbn [obind]. rewrite B. cbn [obind]. destruct (sig_ok c seal) as [[]| |]; auto. congruence. Qed.

(** * C68 *)
(** The plain keyer, after any use: the table of keys is only a cache. *)
Theorem C68_cache sec k ops : new_plain c sec = Ok k ->
  (forall m r n, fst (ks_encrypt c (ks_run c k ops) m r n) = enc_to sec r n m) /\ (forall p s, fst (ks_decrypt c (ks_run c k ops) p s) = dec_from sec s p).
Proof.
  unfold new_plain. destruct (public_key c sec) as [pk| |]; [|discriminate..]. cbn [obind]. intro H. injection H as <-. destruct (ks_run_spec c ops _ (new_cached c sec pk)) as (A & B & _). cbn in B.
  split; intros; [rewrite ks_encrypt_spec by exact A|rewrite ks_decrypt_spec by exact A]; rewrite B; reflexivity.
Qed.
(** ... and holds each key once, at most one for each use. *)
Theorem C68_cache_size sec k ops : new_plain c sec = Ok k -> NoDup (map fst (ks_keys (ks_run c k ops))) /\ length (ks_keys (ks_run c k ops)) <= length ops.
Proof.
  unfold new_plain. destruct (public_key c sec) as [pk| |]; [|discriminate..]. cbn [obind]. intro H. injection H as <-. unfold ks_run.
  assert (G : forall ops k, NoDup (map fst (ks_keys k)) -> let k' := fold_left (fun k o => match o with KEncrypt p r n => snd (ks_encrypt c k p r n) | KDecrypt p s => snd (ks_decrypt c k p s) end) ops k in NoDup (map fst (ks_keys k')) /\ length (ks_keys k') <= length (ks_keys k) + length ops).
  { clear. induction ops as [|o ops IH]; intros k N; [cbn; split; [exact N|lia]|]. cbn [fold_left length].
    assert (ST : forall x, NoDup (map fst (ks_keys (snd (ks_conv c k x)))) /\ length (ks_keys (snd (ks_conv c k x))) <= S (length (ks_keys k))).
    { intro x. unfold ks_conv. assert (LK : lookup x (ks_keys k) = None -> ~ In x (map fst (ks_keys k))).
      { generalize (ks_keys k). induction l as [|[y v] l IL]; intros E F; [exact F|]; destruct F as [F|F]; cbn [lookup map fst] in *; [subst; rewrite seqb_refl in E; discriminate E|]. destruct (seqb x y); [discriminate E|]. exact (IL E F). }
      destruct (lookup x (ks_keys k)) as [v|]; [cbn; split; [exact N|lia]|]. destruct (p_conv c x (ks_sk k)) as [ck| |]; cbn [snd ks_keys map fst length]; split; try exact N; try lia. constructor; [apply LK; reflexivity|exact N]. }
    assert (S1 : exists x, match o with KEncrypt p r n => snd (ks_encrypt c k p r n) | KDecrypt p s => snd (ks_decrypt c k p s) end = snd (ks_conv c k x)).
    { destruct o as [p r n|p s]; [exists r; unfold ks_encrypt; destruct (ks_conv c k r); reflexivity|exists s; unfold ks_decrypt; destruct (ks_conv c k s); reflexivity]. }
    destruct S1 as [x ->]. destruct (ST x) as [S1 S2]. destruct (IH _ S1) as [I1 I2]. split; [exact I1|]. lia. }
  destruct (G ops (mkKS sec pk []) (NoDup_nil _)) as [G1 G2]. cbn in G2. split; assumption.
Qed.
(** What one plain keyer encrypts to the other, the other decrypts. *)
Theorem C68_plain a b ka kb opsa opsb m n p : valid a -> valid b -> new_plain c a = Ok ka -> new_plain c b = Ok kb -> length n = 32 ->
  fst (ks_encrypt c (ks_run c ka opsa) m (ks_pk kb) n) = Ok p -> fst (ks_decrypt c (ks_run c kb opsb) p (ks_pk ka)) = Ok m.
Proof.
  intros VA VB HA HB HN. rewrite (proj1 (C68_cache a ka opsa HA)), (proj2 (C68_cache b kb opsb HB)). unfold new_plain in HA, HB. destruct (public_key c a) as [pa| |] eqn:PA; [|discriminate..]. destruct (public_key c b) as [pb| |] eqn:PB; [|discriminate..].
  cbn [obind] in HA, HB. injection HA as <-. injection HB as <-. cbn [ks_pk]. destruct (conv_pair c valid L a b pa pb VA VB PA PB) as (k & K1 & K2). unfold enc_to, dec_from. rewrite K1, K2. cbn [obind]. apply (round44 c valid L). exact HN.
Qed.
Theorem C68_plain_signs sec k e : valid sec -> new_plain c sec = Ok k -> exists e', ks_sign c k e = Ok e' /\ ev_pubkey e' = ks_pk k /\ sig_ok c e' = Ok true.
Proof.
  intros V. unfold new_plain. destruct (public_key c sec) as [pk| |] eqn:P; [|discriminate..]. cbn [obind]. intro H. injection H as <-. unfold ks_sign. cbn. destruct (sign_ok c valid L sec e V) as [e' E]. exists e'. split; [exact E|].
  destruct (signed c valid L _ _ _ E) as (A & _ & B & _). split; [congruence|exact B].
Qed.
Section Locked.
Context (unlock : str -> str -> outcome str).
(** The keyer with a locked key encrypts rightly ... *)
Theorem C68_locked_encrypts a b s pw kb opsb pa m n p : valid a -> valid b -> unlock (es_code s) pw = Ok a -> public_key c a = Ok pa -> new_plain c b = Ok kb -> length n = 32 ->
  es_encrypt c unlock s pw m (ks_pk kb) n = Ok p -> fst (ks_decrypt c (ks_run c kb opsb) p pa) = Ok m.
Proof.
  intros VA VB U PA HB HN. rewrite (proj2 (C68_cache b kb opsb HB)). unfold new_plain in HB. destruct (public_key c b) as [pb| |] eqn:PB; [|discriminate..].
  cbn [obind] in HB. injection HB as <-. cbn [ks_pk]. destruct (conv_pair c valid L a b pa pb VA VB PA PB) as (k & K1 & K2). unfold es_encrypt, dec_from. rewrite U. cbn [obind]. rewrite K1, K2. cbn [obind]. apply (round44 c valid L). exact HN.
Qed.
(** ... but never decrypts anything: *)
Theorem C68_locked_never_decrypts s pw p sender n m : es_decrypt c unlock s pw p sender n <> Ok m.
Proof. unfold es_decrypt. destruct (unlock _ _) as [sk| |]; [|discriminate..]. cbn [obind]. destruct (p_conv c sender sk) as [k| |]; [|discriminate..]. cbn [obind]. unfold encrypt44. rewrite C28_other_lengths_refused by (cbn; lia). discriminate. Qed.
Theorem C68_locked_signs s pw e e' : fst (es_sign c unlock s pw e) = Ok e' -> exists sk, unlock (es_code s) pw = Ok sk /\ public_key c sk = Ok (ev_pubkey e') /\ sig_ok c e' = Ok true.
Proof. unfold es_sign. destruct (unlock _ _) as [sk| |]; cbn; try discriminate. intro H. exists sk. destruct (signed c valid L _ _ _ H) as (A & _ & B & _). auto. Qed.
(** With a password that does not open it, it does nothing, reports an error and stays as it was; only a public key already known is still told. *)
Theorem C68_locked_wrong_password s pw e m r n : unlock (es_code s) pw = Err ->
  es_sign c unlock s pw e = (Err, s) /\ es_encrypt c unlock s pw m r n = Err /\ es_decrypt c unlock s pw m r n = Err /\ es_public_key c unlock s pw = (if seqb (es_pk s) [] then Err else Ok (es_pk s), s).
Proof.
  intro U. unfold es_sign, es_encrypt, es_decrypt, es_public_key. rewrite U. cbn [obind]. repeat (split; [reflexivity|]). destruct (es_pk s); reflexivity.
Qed.
(** If opening it crashes, so does the caller. *)
Theorem C68_locked_crash s pw e m r n : unlock (es_code s) pw = Panic ->
  fst (es_sign c unlock s pw e) = Panic /\ es_encrypt c unlock s pw m r n = Panic /\ es_decrypt c unlock s pw m r n = Panic /\ fst (es_public_key c unlock s pw) = (if seqb (es_pk s) [] then Panic else Ok (es_pk s)).
Proof.
  intro U. unfold es_sign, es_encrypt, es_decrypt, es_public_key. rewrite U. cbn [obind]. repeat (split; [reflexivity|]). destruct (es_pk s); reflexivity.
Qed.
(** Its public key is right as long as the events it is given to sign name it, or nobody, as their author. *)
Theorem C68_locked_key_partial code sk pk ops pw r : public_key c sk = Ok pk -> (forall p k, unlock code p = Ok k -> k = sk) -> (forall p e, In (ESign p e) ops -> ev_pubkey e = [] \/ ev_pubkey e = pk) ->
  fst (es_public_key c unlock (es_run c unlock (mkES code []) ops) pw) = Ok r -> r = pk.
Proof.
  intros PK U HO. assert (I : let s := es_run c unlock (mkES code []) ops in es_code s = code /\ (es_pk s = [] \/ es_pk s = pk)).
  { clear pw. unfold es_run. assert (G : forall s, es_code s = code /\ (es_pk s = [] \/ es_pk s = pk) -> let s' := fold_left (es_step c unlock) ops s in es_code s' = code /\ (es_pk s' = [] \/ es_pk s' = pk)); [|apply G; cbn; auto].
    induction ops as [|o ops IH]; intros s HS; [exact HS|]. cbn [fold_left]. apply IH; [intros p e H; apply (HO p e); right; exact H|]. destruct HS as [C1 C2]. destruct o as [p|p e]; cbn [es_step].
    - unfold es_public_key. destruct (negb (empty (es_pk s))); [cbn; auto|]. rewrite C1. destruct (unlock code p) as [k| |] eqn:EU; cbn [obind]; [|cbn; auto..]. rewrite (U _ _ EU), PK. cbn. auto.
    - unfold es_sign. rewrite C1. destruct (unlock code p) as [k| |] eqn:EU; cbn; auto. split; [first [reflexivity|exact C1]|]. apply (HO p e). left. reflexivity. }
  destruct I as [C1 C2]. set (s := es_run c unlock (mkES code []) ops) in *. unfold es_public_key. destruct (es_pk s) as [|x y] eqn:E; cbn [empty negb fst].
  - rewrite C1. destruct (unlock code pw) as [k| |] eqn:EU; cbn [obind]; [|discriminate..]. rewrite (U _ _ EU), PK. cbn. congruence.
  - intro H. destruct C2; congruence.
Qed.
End Locked.
End Gift.
Print Assumptions C65_round_trip.
Print Assumptions C65_size.
Print Assumptions C65_outside.
Print Assumptions C65_inside.
Print Assumptions C65_author.
Print Assumptions C65_bad_seal_rejected.
Print Assumptions C68_cache.
Print Assumptions C68_plain.
Print Assumptions C68_plain_signs.
Print Assumptions C68_locked_encrypts.
Print Assumptions C68_locked_never_decrypts.
Print Assumptions C68_locked_signs.
Print Assumptions C68_locked_key_partial.

(** ** A concrete world *)
Definition alice : str := hex_encode (repeat "a"%char 32).
Definition bob : str := hex_encode (repeat "b"%char 32).
Definition once : str := hex_encode (repeat "c"%char 32).
Definition nonce1 : str := repeat "n"%char 32.
Lemma toy_keys_valid : toy_valid alice /\ toy_valid bob /\ toy_valid once.
Proof. repeat split; try reflexivity; eexists; (split; [vm_compute; reflexivity|reflexivity]). Qed.
Definition rumor1 : event := mkEvent [] (B "somebody else") 5 14 [[B "x"; B "y"]] (B "hello") (B "sig").
Lemma toy_sized : sized toy alice.
Proof. intros s H. vm_compute in H. injection H as <-. split; [reflexivity|]. intros h sg A E. cbn [p_schnorr toy] in E. injection E as <-. cbn. rewrite A. reflexivity. Qed.
(** In the toy world the public key is the secret key. *)
Lemma toy_public : public_key toy alice = Ok alice /\ public_key toy bob = Ok bob /\ public_key toy once = Ok once.
Proof. repeat split. Qed.
Lemma rumor1_text : text_event rumor1.
Proof. unfold text_event, rumor1. cbn [ev_id ev_pubkey ev_content ev_sig ev_tags ev_created_at ev_kind]. split; [apply nil_text|]. repeat split; repeat (apply Forall_cons || apply Forall_nil); try (apply (ascii_text _ (fun a => (val a <? 128)%N)); [auto|reflexivity]); vm_compute; discriminate. Qed.
Example C65_example : exists gw r, gift_wrap toy rumor1 bob (enc_to toy alice bob nonce1) (sign_with toy alice) (fun e => e) 3 9 once nonce1 = Ok gw /\
  gift_unwrap toy gw (dec_from toy bob) = Ok r /\ ev_pubkey r = alice /\ ev_content r = B "hello" /\ ev_sig r = [] /\ ev_tags r = [[B "x"; B "y"]].
Proof.
  destruct toy_keys_valid as (VA & VB & VO). destruct toy_public as (PA & PB & PO). destruct (conv_pair toy toy_valid toy_lawful alice bob alice bob VA VB PA PB) as (k & K1 & _). destruct (conv_pair toy toy_valid toy_lawful once bob once bob VO VB PO PB) as (k2 & K2 & _).
  destruct (proj2 (C65_size toy toy_valid toy_lawful alice once bob rumor1 3 9 nonce1 nonce1 k k2 toy_sized VA VO K1 K2 ltac:(vm_compute; split; discriminate) eq_refl)) as [gw G]; [vm_compute; discriminate|]. exists gw.
  destruct (C65_round_trip toy toy_valid toy_lawful alice bob once alice bob rumor1 (fun e => e) 3 9 nonce1 nonce1 gw VA VB VO PA PB rumor1_text eq_refl eq_refl ltac:(vm_compute; split; discriminate) (fun e => eq_refl) G) as (r & R1 & R2 & R3 & R4 & R5 & R6 & R7 & R8).
  exists r. split; [exact G|]. split; [exact R1|]. repeat split; assumption.
Qed.
Lemma toy_seal kind inner : int64 kind -> text_event inner -> (len (encode_event inner) <= 40960)%N ->
  exists seal sct, ev_kind seal = kind /\ ev_pubkey seal = alice /\ sig_ok toy seal = Ok true /\ decode_event (encode_event seal) = Ok seal /\
    dec_from toy bob once sct = Ok (encode_event seal) /\ dec_from toy bob alice (ev_content seal) = Ok (encode_event inner) /\
    forall gw, ev_pubkey gw = once -> ev_content gw = sct -> gift_unwrap toy gw (dec_from toy bob) = Ok (authored toy inner alice).
Proof.
  intros HK TI HL. destruct toy_keys_valid as (VA & VB & VO). destruct toy_public as (PA & PB & PO).
  exact (any_seal toy toy_valid toy_lawful alice bob once alice bob once inner kind 3 nonce1 nonce1 VA VB VO PA PB PO toy_sized TI HL ltac:(vm_compute; split; discriminate) HK eq_refl eq_refl).
Qed.
(** The seal may be an event of any kind: here a text note. *)
Theorem C65_seal_kind_refuted : exists gw seal text r, dec_from toy bob (ev_pubkey gw) (ev_content gw) = Ok text /\ decode_event text = Ok seal /\ ev_kind seal = 1%Z /\ gift_unwrap toy gw (dec_from toy bob) = Ok r.
Proof.
  destruct (toy_seal 1 rumor1 ltac:(vm_compute; split; discriminate) rumor1_text ltac:(vm_compute; discriminate)) as (seal & sct & A & B' & C & D & E & F & G).
  set (gw := mkEvent [] once 9 1059 [[B "p"; bob]] sct []). exists gw, seal, (encode_event seal), (authored toy rumor1 alice). auto.
Qed.
Print Assumptions C65_seal_kind_refuted.
(** The wrap itself is not checked: its kind, its signature, and whether it is for us. *)
Theorem C65_wrap_unchecked_refuted : exists gw r, ev_kind gw = 1%Z /\ sig_ok toy gw = Err /\ ev_tags gw = [] /\ gift_unwrap toy gw (dec_from toy bob) = Ok r.
Proof.
  destruct (toy_seal 13 rumor1 ltac:(vm_compute; split; discriminate) rumor1_text ltac:(vm_compute; discriminate)) as (seal & sct & A & B' & C & D & E & F & G).
  exists (mkEvent [] once 9 1 [] sct (B "no")), (authored toy rumor1 alice). split; [reflexivity|]. split; [reflexivity|]. split; [reflexivity|]. apply G; reflexivity.
Qed.
Print Assumptions C65_wrap_unchecked_refuted.
(** A rumor that names another author, and carries some signature, comes out with the sealer as author and with that signature. *)
Theorem C65_rumor_unchecked_refuted : exists gw text seal inner text2 r, dec_from toy bob (ev_pubkey gw) (ev_content gw) = Ok text /\ decode_event text = Ok seal /\ ev_kind seal = 13%Z /\
  dec_from toy bob (ev_pubkey seal) (ev_content seal) = Ok text2 /\ decode_event text2 = Ok inner /\ gift_unwrap toy gw (dec_from toy bob) = Ok r /\ ev_pubkey inner <> ev_pubkey r /\ ev_sig r = B "sig".
Proof.
  destruct (toy_seal 13 rumor1 ltac:(vm_compute; split; discriminate) rumor1_text ltac:(vm_compute; discriminate)) as (seal & sct & A & B' & C & D & E & F & G).
  set (gw := mkEvent [] once 9 1059 [[B "p"; bob]] sct []). exists gw, (encode_event seal), seal, rumor1, (encode_event rumor1), (authored toy rumor1 alice).
  split; [exact E|]. split; [exact D|]. split; [exact A|]. split; [rewrite B'; exact F|]. split; [apply event_round_trip, rumor1_text|]. split; [apply G; reflexivity|]. split; [vm_compute; discriminate|reflexivity].
Qed.
Print Assumptions C65_rumor_unchecked_refuted.
(** The times chosen lie up to ten hours back, less a minute ("up to 6 hours", says the code). *)
Theorem C65_times now r : (0 <= r < 600 -> now - 36000 < wrap_time now r <= now)%Z.
Proof. unfold wrap_time. lia. Qed.
Theorem C65_six_hours_refuted : exists now r, (0 <= r < 600 /\ wrap_time now r < now - 6 * 3600)%Z.
Proof. exists 1700000000%Z, 599%Z. vm_compute. repeat split; discriminate. Qed.
Print Assumptions C65_times.
Print Assumptions C65_six_hours_refuted.

(** A password opens the locked key of alice. *)
Definition unlock1 (code pw : str) : outcome str := if seqb pw (B "secret") then Ok alice else Err.
Theorem C68_locked_refuted : exists p, fst (ks_encrypt toy (mkKS bob bob []) (B "hi") alice nonce1) = Ok p /\ unlock1 (B "code") (B "secret") = Ok alice /\
  es_decrypt toy unlock1 (mkES (B "code") []) (B "secret") p bob nonce1 = Err.
Proof. eexists. split; [vm_compute; reflexivity|]. split; reflexivity. Qed.
Print Assumptions C68_locked_refuted.
Example C68_wrong_password_example : unlock1 (B "code") (B "guess") = Err /\ es_sign toy unlock1 (mkES (B "code") []) (B "guess") (mkEvent [] [] 1 1 [] (B "hi") []) = (Err, mkES (B "code") []).
Proof. split; reflexivity. Qed.
(** Asked to sign an event that names someone else, it afterwards gives that key as its own. *)
Theorem C68_locked_key_refuted : exists ops, fst (es_public_key toy unlock1 (es_run toy unlock1 (mkES (B "code") []) []) (B "secret")) = Ok alice /\
  fst (es_public_key toy unlock1 (es_run toy unlock1 (mkES (B "code") []) ops) (B "secret")) = Ok bob.
Proof. exists [ESign (B "secret") (mkEvent [] bob 1 1 [] (B "hi") [])]. split; vm_compute; reflexivity. Qed.
Print Assumptions C68_locked_key_refuted.

(** * C86: building a keyer from text *)
Lemma hex_head s b x : hex_decode s = Some b -> hd_error s = Some x -> exists v, hex_val x = Some v.
Proof. destruct s as [|a [|a' r]]; cbn; try discriminate. destruct (hex_val a) as [v|] eqn:E; [|discriminate]. intros _ H. injection H as <-. eauto. Qed.
Lemma hex_not_n s b : hex_decode s = Some b -> forall x, hd_error s = Some x -> ceqb (lower x) "n"%char = false.
Proof. intros H x HX. destruct (hex_head _ _ _ H HX) as [v E]. revert E. destruct x as [[] [] [] [] [] [] [] []]; vm_compute; intro; try discriminate; reflexivity. Qed.
Lemma decode_head s h d : decode s = Ok (h, d) -> h <> [] /\ hd_error h = option_map lower (hd_error s).
Proof.
  intro H. apply decode_ok in H. destruct H as (d' & vs & A & _ & _ & _ & _ & N). split; [exact N|]. apply split_last_inv in A as [A _]. destruct h as [|y h]; [congruence|]. destruct s as [|x s]; [discriminate|]. cbn in *. congruence.
Qed.
Lemma not_code (p h : str) : hd_error p = Some "n"%char -> (forall x, hd_error h = Some x -> ceqb x "n"%char = false) -> seqb h p = false.
Proof. intros HP HH. destruct (seqb h p) eqn:E; [|reflexivity]. apply seqb_eq in E. subst p. specialize (HH _ HP). discriminate. Qed.
Lemma hex_no_code s b : hex_decode s = Some b -> nip19_decode s = Err.
Proof.
  intro H. assert (NN : forall h d, decode s = Ok (h, d) -> forall x, hd_error h = Some x -> ceqb x "n"%char = false).
  { intros h d E x HX. apply decode_head in E as [_ E]. rewrite HX in E. destruct (hd_error s) as [y|] eqn:EY; [|discriminate]. cbn in E. injection E as ->. exact (hex_not_n s b H y EY). }
  assert (NP : nip19_decode s <> Panic). { apply C25_no_crash_partial. intros d E. specialize (NN _ _ E "n"%char eq_refl). discriminate. }
  unfold nip19_decode in *. destruct (decode s) as [[h d]| |] eqn:E; cbn [obind] in *; [|reflexivity|congruence]. specialize (NN h d eq_refl).
  rewrite !(fun p Q => not_code p h Q NN) in * by reflexivity. cbn [orb] in *. destruct (convert_bits d 5 8 false); cbn [obind] in *; congruence.
Qed.
Lemma hex_pad s b n : hex_decode s = Some b -> hex_decode (repeat "0"%char (2 * n) ++ s) = Some (repeat (byte_of 0) n ++ b).
Proof. intro H. induction n as [|n IH]; [exact H|]. replace (2 * S n) with (S (S (2 * n))) by lia. cbn [repeat app hex_decode]. rewrite IH. reflexivity. Qed.
Section New.
Context (c : prims) (unlock : str -> str -> outcome str) (is_remote : str -> bool).
Notation keyer_new := (keyer_new c unlock is_remote).
(** A short hexadecimal key is filled with zero bytes on the left. *)
Theorem C86_hex s b handler pw pk : hex_decode s = Some b -> length b <= 32 -> is_remote s = false -> public_key c (hex_encode (repeat (byte_of 0) (32 - length b) ++ b)) = Ok pk ->
  exists sk, keyer_new s handler pw = Ok (KPlain (mkKS sk pk [])) /\ length sk = 64 /\ hex_decode sk = Some (repeat (byte_of 0) (32 - length b) ++ b).
Proof.
  intros H HL HR HP. pose proof (hex_decode_len s b H) as HS. assert (HD : hex_decode (repeat "0"%char (64 - length s) ++ s) = Some (repeat (byte_of 0) (32 - length b) ++ b)) by (replace (64 - length s) with (2 * (32 - length b)) by lia; apply hex_pad; exact H).
  exists (repeat "0"%char (64 - length s) ++ s). split; [|split; [rewrite app_length, repeat_length; lia|exact HD]].
  unfold GiftModel.keyer_new. assert (HN : has_prefix s (B "ncryptsec") = false).
  { destruct (has_prefix s (B "ncryptsec")) eqn:E; [|reflexivity]. apply has_prefix_spec in E as [t ->]. pose proof (hex_not_n _ b H "n"%char eq_refl). discriminate. }
  rewrite HN, HR, (hex_no_code s b H), H. destruct (Nat.leb_spec (length s) 64); [|lia]. unfold plain_of. unfold public_key, get_public_key in *. rewrite HD. rewrite hex_decode_encode in HP. congruence.
Qed.
(** The hexadecimal, nsec and (with its password) ncryptsec forms of a key give the same keyer. *)
Theorem C86_same_key sk b handler pw code pk : hex_decode sk = Some b -> length b = 32 -> hex_encode b = sk -> is_remote sk = false -> public_key c sk = Ok pk ->
  keyer_new sk handler pw = Ok (KPlain (mkKS sk pk [])) /\
  (exists t, encode_private_key sk = Ok t /\ (is_remote t = false -> keyer_new t handler pw = Ok (KPlain (mkKS sk pk [])))) /\
  (has_prefix code (B "ncryptsec") = true -> unlock code pw = Ok sk -> keyer_new code false pw = Ok (KPlain (mkKS sk pk []))).
Proof.
  intros H HL HE HR HP. split; [|split].
  - pose proof (hex_decode_len sk b H) as HS. destruct (C86_hex sk b handler pw pk H ltac:(lia) HR) as (s & A & _); [rewrite HL; cbn [Nat.sub repeat app]; rewrite HE; exact HP|].
    rewrite A. f_equal. f_equal. f_equal. revert A. unfold GiftModel.keyer_new. assert (HN : has_prefix sk (B "ncryptsec") = false).
    { destruct (has_prefix sk (B "ncryptsec")) eqn:E; [|reflexivity]. apply has_prefix_spec in E as [t ->]. pose proof (hex_not_n _ b H "n"%char eq_refl). discriminate. }
    rewrite HN, HR, (hex_no_code sk b H), H. destruct (Nat.leb_spec (length sk) 64); [|discriminate]. replace (64 - length sk) with 0 by lia. cbn [repeat app]. unfold plain_of. rewrite HP. congruence.
  - destruct (proj1 (C23_round_trip sk b H HL)) as (t & T1 & T2). exists t. split; [exact T1|]. intro HT. unfold GiftModel.keyer_new. rewrite HT, T2, seqb_refl, HE. assert (HN : has_prefix t (B "ncryptsec") = false).
    { destruct (has_prefix t (B "ncryptsec")) eqn:E; [|reflexivity]. apply has_prefix_spec in E as [u ->]. exfalso. unfold nip19_decode in T2. destruct (decode (B "ncryptsec" ++ u)) as [[h d]| |] eqn:E; cbn [obind] in T2; [|discriminate..].
      assert (h = B "nsec"). { revert T2. clear. destruct (convert_bits d 5 8 false); cbn [obind]; [|discriminate..]. repeat (match goal with |- context [if ?x then _ else _] => destruct x eqn:? end; try discriminate); try congruence; match goal with |- obind ?x _ = _ -> _ => destruct x; cbn [obind]; try discriminate end; match goal with |- context [if ?x then _ else _] => destruct x end; discriminate. }
      subst h. apply decode_ok in E. destruct E as (d' & vs & A & _). apply split_last_inv in A as [A _]. discriminate. }
    rewrite HN. unfold plain_of. rewrite HP. reflexivity.
  - intros A U. unfold GiftModel.keyer_new. rewrite A, U. cbn [obind]. unfold plain_of. rewrite HP. reflexivity.
Qed.
(** A keyer is only ever made for a key whose text is valid, and nothing that is not a key, code or remote address gives one. *)
Theorem C86_others_refused s handler pw : has_prefix s (B "ncryptsec") = false -> is_remote s = false -> hex_decode s = None -> (forall sec, nip19_decode s <> Ok (B "nsec", KHex sec)) -> nip19_decode s <> Panic -> keyer_new s handler pw = Err.
Proof.
  intros A R H N P. unfold GiftModel.keyer_new. rewrite A, R, H. destruct (nip19_decode s) as [[p [sec|q]]| |]; [|reflexivity..|congruence]. destruct (seqb p (B "nsec")) eqn:E; [|reflexivity]. apply seqb_eq in E. subst p. exfalso. apply (N sec). reflexivity.
Qed.
(** An odd number of digits is refused, although the code means to fill short keys; nothing at all gives the keyer of the key zero. *)
Theorem C86_odd_refuted handler pw : is_remote (B "1") = false -> keyer_new (B "1") handler pw = Err.
Proof. intro H. unfold GiftModel.keyer_new. rewrite H. reflexivity. Qed.
Theorem C86_nothing_refuted handler pw pk : is_remote [] = false -> public_key c (repeat "0"%char 64) = Ok pk -> exists s, s = [] /\ keyer_new s handler pw = Ok (KPlain (mkKS (repeat "0"%char 64) pk [])).
Proof. intros H P. exists []. split; [reflexivity|]. unfold GiftModel.keyer_new. rewrite H. cbn [has_prefix B nip19_decode]. change (nip19_decode []) with (@Err (str * code)). cbn [hex_decode length Nat.leb Nat.sub]. unfold plain_of. rewrite app_nil_r, P. reflexivity. Qed.
End New.
Print Assumptions C86_hex.
Print Assumptions C86_same_key.
Print Assumptions C86_others_refused.
Print Assumptions C86_odd_refuted.
Print Assumptions C86_nothing_refuted.
Example C86_example : keyer_new toy unlock1 (fun _ => false) (B "0102") false [] = Ok (KPlain (mkKS (repeat "0"%char 60 ++ B "0102") (repeat "0"%char 60 ++ B "0102") [])) /\
  keyer_new toy unlock1 (fun _ => false) (B "ncryptsec1x") false (B "secret") = Ok (KPlain (mkKS alice alice [])) /\
  keyer_new toy unlock1 (fun _ => false) (B "ncryptsec1x") false (B "guess") = Err /\ keyer_new toy unlock1 (fun _ => false) alice true [] = Ok (KPlain (mkKS alice alice [])).
Proof. vm_compute. auto. Qed.

(** * C87: private messages *)
Section Message.
Context (c : prims) (valid : str -> Prop) (L : lawful c valid).
Lemma plain_ks a k : new_plain c a = Ok k -> exists pa, public_key c a = Ok pa /\ k = mkKS a pa [].
Proof. unfold new_plain. destruct (public_key c a) as [pa| |]; [|discriminate..]. cbn [obind]. intro H. injection H as <-. eauto. Qed.
(** Both copies of a message open to the same rumor: the recipient's with the recipient's key, the sender's with the sender's. *)
Theorem C87_both_sides a b ka kb opsa opsa' opsb content tags modify now ra rb us them : valid a -> valid b -> valid (r_key ra) -> valid (r_key rb) -> new_plain c a = Ok ka -> new_plain c b = Ok kb ->
  utf8_text content -> Forall (Forall utf8_text) tags -> int64 now -> int64 (r_t1 ra) -> int64 (r_t1 rb) -> length (r_enc ra) = 32 -> length (r_enc rb) = 32 -> length (r_out ra) = 32 -> length (r_out rb) = 32 ->
  (forall e, ev_content (modify e) = ev_content e) ->
  prepare_message c content tags (ks_run c ka opsa) (ks_pk kb) modify now ra rb = Ok (us, them) ->
  exists r, receive_message c (ks_run c kb opsb) them = Ok r /\ receive_message c (ks_run c ka opsa') us = Ok r /\
    ev_pubkey r = ks_pk ka /\ ev_content r = content /\ ev_kind r = 14%Z /\ ev_tags r = tags ++ [[B "p"; ks_pk kb]] /\ ev_created_at r = now /\ ev_sig r = [] /\ ev_id r = id_of c r.
Proof.
  intros VA VB VNA VNB HA HB TC TT HN T1 T2 N1 N2 N3 N4 HM H. destruct (plain_ks _ _ HA) as (pa & PA & ->). destruct (plain_ks _ _ HB) as (pb & PB & ->).
  destruct (ks_run_spec c opsa _ (new_cached c a pa)) as (CA & SA & QA). cbn [ks_sk ks_pk] in *. set (k := ks_run c (mkKS a pa []) opsa) in *.
  assert (CA1 : cached c (snd (ks_encrypt c k [] (ks_pk k) [])) /\ ks_sk (snd (ks_encrypt c k [] (ks_pk k) [])) = a).
  { unfold ks_encrypt. destruct (ks_conv_spec c k (ks_pk k) CA) as (_ & X & Y & _). destruct (ks_conv c k (ks_pk k)). cbn in *. split; [exact X|congruence]. }
  unfold prepare_message in H. rewrite QA in *. set (k1 := snd (ks_encrypt c k [] pa [])) in *. destruct CA1 as [CA1 SA1].
  match type of H with obind (gift_wrap c ?R _ _ _ _ _ _ _ _) _ = _ => set (rumor := R) in *; assert (TR : text_event rumor) end.
  { unfold rumor, text_event, id_of. cbn [ev_id ev_pubkey ev_content ev_sig ev_tags ev_created_at ev_kind]. split; [unfold get_id; apply hex_text|]. assert (PT : forall sk pk, public_key c sk = Ok pk -> utf8_text pk) by (intros sk pk P; unfold public_key, get_public_key in P; destruct (hex_decode sk); [|discriminate]; injection P as <-; apply hex_text).
    split; [apply (PT a); exact PA|]. split; [exact TC|]. split; [apply nil_text|]. split; [|split; [exact HN|vm_compute; split; discriminate]]. apply Forall_app. split; [exact TT|]. repeat constructor; [apply (ascii_text _ (fun a => (val a <? 128)%N)); [auto|reflexivity]|]. apply (PT b). exact PB. }
  destruct (gift_wrap c rumor pa _ _ _ _ _ _ _) as [u| |] eqn:G1; [|discriminate..]. cbn [obind] in H. destruct (gift_wrap c rumor pb _ _ _ _ _ _ _) as [t| |] eqn:G2; [|discriminate..]. cbn [obind] in H. assert (u = us /\ t = them) as [-> ->] by (split; congruence).
  exists (authored c (unsigned rumor) pa).
  assert (EN : forall kk o n m p, cached c kk -> ks_sk kk = a -> length n = 32 -> fst (ks_encrypt c kk m o n) = Ok p -> exists kx nx, p_conv c o a = Ok kx /\ length nx = 32 /\ encrypt44 c m kx nx = Ok p).
  { intros kk o n m p C1 C2 C3 E. rewrite ks_encrypt_spec in E by exact C1. rewrite C2 in E. destruct (p_conv c o a) as [kx| |]; [|discriminate..]. exists kx, n. auto. }
  assert (DE : forall x px ops o p kx, p_conv c o x = Ok kx -> fst (ks_decrypt c (ks_run c (mkKS x px []) ops) p o) = decrypt44 c p kx).
  { intros x px ops o p kx E. destruct (ks_run_spec c ops _ (new_cached c x px)) as (C1 & C2 & _). rewrite ks_decrypt_spec by exact C1. cbn [ks_sk] in C2. rewrite C2, E. reflexivity. }
  unfold ks_sign in G1, G2. rewrite SA in G1. rewrite SA1 in G2.
  split; [|split].
  - unfold receive_message. eapply (wrap_unwrap c valid L a b (r_key rb) pa pb); try exact G2; eauto.
  - unfold receive_message. eapply (wrap_unwrap c valid L a a (r_key ra) pa pa); try exact G1; eauto.
  - destruct (authored_rumor c rumor pa) as (B1 & B2 & B3 & B4 & B5 & B6 & B7). repeat split; try assumption.
Qed.
End Message.
Print Assumptions C87_both_sides.
(** Both copies are made exactly when the message's text has at most 40960 bytes. *)
Definition message (c : prims) (pa pb content : str) (tags : list tag) (now : Z) : event :=
  let r := mkEvent [] pa now 14 (tags ++ [[B "p"; pb]]) content [] in mkEvent (id_of c r) pa now 14 (tags ++ [[B "p"; pb]]) content [].
Lemma gift_ext c rumor r f g sg m t1 t2 nk n : (forall x, f x = g x) -> gift_wrap c rumor r f sg m t1 t2 nk n = gift_wrap c rumor r g sg m t1 t2 nk n.
Proof. intro H. unfold gift_wrap. rewrite H. reflexivity. Qed.
Theorem C87_sent_exactly c valid (L : lawful c valid) a b ka pb ops content tags now ra rb : sized c a -> valid a -> valid b -> valid (r_key ra) -> valid (r_key rb) -> new_plain c a = Ok ka -> public_key c b = Ok pb ->
  int64 (r_t1 ra) -> int64 (r_t1 rb) -> length (r_enc ra) = 32 -> length (r_enc rb) = 32 ->
  ((exists us them, prepare_message c content tags (ks_run c ka ops) pb (fun e => e) now ra rb = Ok (us, them)) <-> (len (encode_event (unsigned (message c (ks_pk ka) pb content tags now))) <= 40960)%N).
Proof.
  intros SZ VA VB V1 V2 HA PB T1 T2 N1 N2. destruct (plain_ks _ _ _ HA) as (pa & PA & ->). cbn [ks_pk]. destruct (ks_run_spec c ops _ (new_cached c a pa)) as (CA & SA & QA). cbn [ks_sk ks_pk] in *. set (k := ks_run c (mkKS a pa []) ops) in *.
  assert (CA1 : cached c (snd (ks_encrypt c k [] pa [])) /\ ks_sk (snd (ks_encrypt c k [] pa [])) = a).
  { unfold ks_encrypt. destruct (ks_conv_spec c k pa CA) as (_ & X & Y & _). destruct (ks_conv c k pa). cbn in *. split; [exact X|congruence]. }
  destruct CA1 as [CA1 SA1]. unfold prepare_message. rewrite QA. set (k1 := snd (ks_encrypt c k [] pa [])) in *. change (mkEvent (id_of c _) _ _ _ _ _ []) with (message c pa pb content tags now). set (m := message c pa pb content tags now).
  assert (VN : forall x, valid x -> exists px, public_key c x = Ok px) by (intros x V; destruct (l_conv c valid L x x V V) as (p & _ & _ & P & _); eauto).
  destruct (VN _ V1) as [p1 P1]. destruct (VN _ V2) as [p2 P2].
  destruct (conv_pair c valid L a a pa pa VA VA PA PA) as (q1 & K1 & _). destruct (conv_pair c valid L a b pa pb VA VB PA PB) as (q2 & K2 & _).
  destruct (conv_pair c valid L _ a p1 pa V1 VA P1 PA) as (q3 & K3 & _). destruct (conv_pair c valid L _ b p2 pb V2 VB P2 PB) as (q4 & K4 & _).
  rewrite (gift_ext c m pa _ (enc_to c a pa (r_enc ra))) by (intro x; rewrite ks_encrypt_spec by exact CA; rewrite SA; reflexivity).
  rewrite (gift_ext c m pb _ (enc_to c a pb (r_enc rb))) by (intro x; rewrite ks_encrypt_spec by exact CA1; rewrite SA1; reflexivity).
  unfold ks_sign. rewrite SA, SA1.
  pose proof (C65_size c valid L a (r_key ra) pa m (r_t1 ra) (r_t2 ra) (r_enc ra) (r_out ra) q1 q3 SZ VA V1 K1 K3 T1 N1) as G1. pose proof (C65_size c valid L a (r_key rb) pb m (r_t1 rb) (r_t2 rb) (r_enc rb) (r_out rb) q2 q4 SZ VA V2 K2 K4 T2 N2) as G2.
  unfold sign_with in G1, G2. split.
  - intros (us & them & H). apply G1. match type of H with obind ?x _ = _ => destruct x as [u| |] eqn:E end; [|discriminate..]. exists u. exact E.
  - intro Q. apply G1 in Q as Q1. apply G2 in Q as Q2. destruct Q1 as [us Q1]. destruct Q2 as [them Q2]. exists us, them. match goal with |- obind ?x _ = _ => replace x with (Ok us : outcome event) by (symmetry; exact Q1) end. cbn [obind]. match goal with |- obind ?x _ = _ => replace x with (Ok them : outcome event) by (symmetry; exact Q2) end. reflexivity.
Qed.
Print Assumptions C87_sent_exactly.
Definition random1 : randoms := mkR nonce1 3 9 once nonce1.
Example C87_example : exists us them, new_plain toy alice = Ok (mkKS alice alice []) /\ new_plain toy bob = Ok (mkKS bob bob []) /\ prepare_message toy (B "hi") [] (mkKS alice alice []) bob (fun e => e) 5 random1 random1 = Ok (us, them).
Proof.
  destruct toy_keys_valid as (VA & VB & VO). destruct toy_public as (PA & PB & PO). destruct (conv_pair toy toy_valid toy_lawful alice bob alice bob VA VB PA PB) as (k & K1 & _). destruct (conv_pair toy toy_valid toy_lawful once bob once bob VO VB PO PB) as (k2 & K2 & _).
  destruct (conv_pair toy toy_valid toy_lawful alice alice alice alice VA VA PA PA) as (k3 & K3 & _). destruct (conv_pair toy toy_valid toy_lawful once alice once alice VO VA PO PA) as (k4 & K4 & _).
  unfold prepare_message. set (k1 := snd (ks_encrypt toy (mkKS alice alice []) [] (ks_pk (mkKS alice alice [])) [])). assert (C1 : cached toy k1 /\ ks_sk k1 = alice) by (exact (ltac:(destruct (ks_run_spec toy [KEncrypt [] alice []] _ (new_cached toy alice alice)) as (A & B & _); split; assumption))).
  match goal with |- context [gift_wrap toy ?R _ _ _ _ _ _ _ _] => set (rumor := R) end. cbn [ks_pk]. destruct C1 as [C1 C2].
  destruct (proj2 (C65_size toy toy_valid toy_lawful alice once alice rumor 3 9 nonce1 nonce1 k3 k4 toy_sized VA VO K3 K4 ltac:(vm_compute; split; discriminate) eq_refl)) as [us G1]; [vm_compute; discriminate|].
  destruct (proj2 (C65_size toy toy_valid toy_lawful alice once bob rumor 3 9 nonce1 nonce1 k k2 toy_sized VA VO K1 K2 ltac:(vm_compute; split; discriminate) eq_refl)) as [them G2]; [vm_compute; discriminate|].
  exists us, them. split; [reflexivity|]. split; [reflexivity|].
  match goal with |- obind ?x _ = _ => assert (E1 : x = Ok us) end.
  { rewrite <- G1. etransitivity; [apply gift_ext with (g := enc_to toy alice alice nonce1); intro x; rewrite ks_encrypt_spec by apply new_cached; reflexivity|]. reflexivity. }
  rewrite E1. cbn [obind]. match goal with |- obind ?x _ = _ => assert (E2 : x = Ok them) end.
  { rewrite <- G2. etransitivity; [apply gift_ext with (g := enc_to toy alice bob nonce1); intro x; rewrite ks_encrypt_spec by exact C1; rewrite C2; reflexivity|]. unfold ks_sign. rewrite C2. reflexivity. }
  rewrite E2. reflexivity.
Qed.

Print Assumptions C68_cache_size.
Print Assumptions C68_locked_wrong_password.
Print Assumptions C68_locked_crash.
