(** Proofs about gift wraps and keyers. *)
From Verif Require Import Base JsonSpec EventModel EventProofs JLexModel JLexProofs JsonEventProofs CipherModel CipherProofs CryptoModel CryptoProofs Nip19Model GiftModel.
Import ListNotations.
Open Scope nat_scope.

Section Gift.
Context (c : prims).
Definition unsigned (e : event) : event := mkEvent (ev_id e) (ev_pubkey e) (ev_created_at e) (ev_kind e) (ev_tags e) (ev_content e) [].
Definition authored (e : event) (pk : str) : event :=
  let r := mkEvent (ev_id e) pk (ev_created_at e) (ev_kind e) (ev_tags e) (ev_content e) (ev_sig e) in
  mkEvent (id_of c r) pk (ev_created_at e) (ev_kind e) (ev_tags e) (ev_content e) (ev_sig e).
Lemma unwrap_of gw decrypt seal rumor : decrypt (ev_pubkey gw) (ev_content gw) = Ok (encode_event seal) -> text_event seal -> sig_ok c seal = Ok true ->
  decrypt (ev_pubkey seal) (ev_content seal) = Ok (encode_event rumor) -> text_event rumor -> gift_unwrap c gw decrypt = Ok (authored rumor (ev_pubkey seal)).
Proof. intros A T S D T'. unfold gift_unwrap. rewrite A. cbn [obind]. rewrite event_round_trip by exact T. cbn [obind]. rewrite S, D. cbn [obind]. rewrite event_round_trip by exact T'. reflexivity. Qed.
Lemma unsigned_text e : text_event e -> text_event (unsigned e).
Proof. intros (A & B & C & D & E). unfold text_event, unsigned. cbn. repeat split; try assumption; try apply E; apply nil_text. Qed.
Lemma gift_cases rumor recipient encrypt sign_fn modify t1 t2 nk nonce gw : gift_wrap c rumor recipient encrypt sign_fn modify t1 t2 nk nonce = Ok gw ->
  exists ct seal ck sct, encrypt (encode_event (unsigned rumor)) = Ok ct /\ sign_fn (mkEvent [] [] t1 13 [] ct []) = Ok seal /\ p_conv c recipient nk = Ok ck /\
    encrypt44 c (encode_event seal) ck nonce = Ok sct /\ sign_with c nk (modify (mkEvent [] [] t2 1059 [[B "p"; recipient]] sct [])) = Ok gw.
Proof.
  unfold gift_wrap. fold (unsigned rumor). destruct (encrypt _) as [ct| |] eqn:E1; [|discriminate..]. cbn [obind]. destruct (sign_fn _) as [seal| |] eqn:E2; [|discriminate..]. cbn [obind].
  destruct (p_conv c recipient nk) as [ck| |] eqn:E3; [|discriminate..]. cbn [obind]. destruct (encrypt44 c _ ck nonce) as [sct| |] eqn:E4; [|discriminate..]. cbn [obind]. intro H. exists ct, seal, ck, sct. auto.
Qed.

Section Laws.
Context (valid : str -> Prop) (L : lawful c valid).
Lemma conv_pair a b pa pb : valid a -> valid b -> public_key c a = Ok pa -> public_key c b = Ok pb -> exists k, p_conv c pb a = Ok k /\ p_conv c pa b = Ok k.
Proof. intros VA VB PA PB. destruct (l_conv c valid L a b VA VB) as (x & y & k & A & B & C & D). exists k. split; congruence. Qed.
Lemma wrap_unwrap a b nk pa pb rumor encrypt modify t1 t2 nonce gw decrypt :
  valid a -> valid b -> valid nk -> public_key c a = Ok pa -> public_key c b = Ok pb -> text_event rumor -> length nonce = 32 -> int64 t1 ->
  (forall e, ev_content (modify e) = ev_content e) ->
  (forall m p, encrypt m = Ok p -> exists k n, p_conv c pb a = Ok k /\ length n = 32 /\ encrypt44 c m k n = Ok p) ->
  (forall other p k, p_conv c other b = Ok k -> decrypt other p = decrypt44 c p k) ->
  gift_wrap c rumor pb encrypt (sign_with c a) modify t1 t2 nk nonce = Ok gw -> gift_unwrap c gw decrypt = Ok (authored (unsigned rumor) pa).
Proof.
  intros VA VB VN PA PB TR HN HT HM HE HD H. apply gift_cases in H. destruct H as (ct & seal & ck & sct & A & B & C & D & E).
  destruct (HE _ _ A) as (k & n & K1 & K2 & K3). destruct (conv_pair a b pa pb VA VB PA PB) as (k' & K4 & K5). assert (k' = k) by congruence. subst k'.
  destruct (signed c valid L _ _ _ B) as (S1 & S2 & S3 & S4 & S5 & S6 & S7). destruct (signed c valid L _ _ _ E) as (G1 & G2 & G3 & G4 & G5 & G6 & G7).
  rewrite HM in G4. cbn in S4, G4. assert (pa = ev_pubkey seal) by congruence. subst pa.
  destruct (conv_pair nk b _ pb VN VB G1 PB) as (k2 & K6 & K7). assert (k2 = ck) by congruence. subst k2.
  apply unwrap_of.
  - rewrite (HD _ _ _ K7), G4. apply (round44 c valid L _ _ nonce); assumption.
  - apply (signed_text c _ _ _ B); cbn; [apply (text44 c _ _ _ _ K3)|constructor|assumption|unfold int64; vm_compute; split; discriminate].
  - exact S3.
  - rewrite (HD _ _ _ K5), S4. apply (round44 c valid L _ _ n); assumption.
  - apply unsigned_text. exact TR.
Qed.
End Laws.

(** The table of conversation keys only holds what would be computed. *)
Definition cached (k : keysigner) : Prop := forall o ck, lookup o (ks_keys k) = Some ck -> p_conv c o (ks_sk k) = Ok ck.
Lemma ks_conv_spec k o : cached k -> fst (ks_conv c k o) = p_conv c o (ks_sk k) /\ cached (snd (ks_conv c k o)) /\ ks_sk (snd (ks_conv c k o)) = ks_sk k /\ ks_pk (snd (ks_conv c k o)) = ks_pk k.
Proof.
  intro H. unfold ks_conv. destruct (lookup o (ks_keys k)) as [ck|] eqn:E; [cbn; rewrite (H _ _ E); auto|]. destruct (p_conv c o (ks_sk k)) as [ck| |] eqn:E2; cbn; auto.
  split; [reflexivity|]. split; [|auto]. intros o' ck'. cbn. destruct (seqb o' o) eqn:E3; [|apply H]. apply seqb_eq in E3. subst o'. congruence.
Qed.
Lemma ks_run_spec ops : forall k, cached k -> cached (ks_run c k ops) /\ ks_sk (ks_run c k ops) = ks_sk k /\ ks_pk (ks_run c k ops) = ks_pk k.
Proof.
  induction ops as [|o ops IH]; intros k H; [cbn; auto|]. cbn [ks_run fold_left]. fold (ks_run c).
  assert (HS : forall x, cached (snd (ks_conv c k x)) /\ ks_sk (snd (ks_conv c k x)) = ks_sk k /\ ks_pk (snd (ks_conv c k x)) = ks_pk k) by (intro x; apply ks_conv_spec; exact H).
  match goal with |- cached (fold_left _ _ ?k') /\ _ => assert (K : cached k' /\ ks_sk k' = ks_sk k /\ ks_pk k' = ks_pk k) end.
  { destruct o as [p r n|p s]; [unfold ks_encrypt; specialize (HS r); destruct (ks_conv c k r)|unfold ks_decrypt; specialize (HS s); destruct (ks_conv c k s)]; exact HS. }
  destruct K as (A & B & D). destruct (IH _ A) as (E & F & G). unfold ks_run in *. split; [exact E|]. split; congruence.
Qed.
Lemma ks_encrypt_spec k p r n : cached k -> fst (ks_encrypt c k p r n) = obind (p_conv c r (ks_sk k)) (fun ck => encrypt44 c p ck n).
Proof. intro H. unfold ks_encrypt. destruct (ks_conv_spec k r H) as (A & _). destruct (ks_conv c k r). cbn in *. rewrite A. reflexivity. Qed.
Lemma ks_decrypt_spec k p s : cached k -> fst (ks_decrypt c k p s) = obind (p_conv c s (ks_sk k)) (fun ck => decrypt44 c p ck).
Proof. intro H. unfold ks_decrypt. destruct (ks_conv_spec k s H) as (A & _). destruct (ks_conv c k s). cbn in *. rewrite A. reflexivity. Qed.
Lemma new_cached sec pk : cached (mkKS sec pk []). Proof. intros o ck H. discriminate. Qed.
End Gift.

(** Sizes: how long the text of a seal is. *)
From Coq Require Import DecimalFacts.
Fixpoint digits (u : Decimal.uint) : nat :=
  match u with Decimal.Nil => 0 | Decimal.D0 u | Decimal.D1 u | Decimal.D2 u | Decimal.D3 u | Decimal.D4 u | Decimal.D5 u | Decimal.D6 u | Decimal.D7 u | Decimal.D8 u | Decimal.D9 u => S (digits u) end.
Lemma digits_str u : length (uint_str u) = digits u.
Proof. induction u; cbn; congruence. Qed.
Lemma digits_revapp u : forall v, digits (Decimal.revapp u v) = digits u + digits v.
Proof. induction u; intro v; cbn [Decimal.revapp digits]; rewrite ?IHu; cbn [digits]; lia. Qed.
Lemma digits_double u : digits (Decimal.Little.double u) <= S (digits u) /\ digits (Decimal.Little.succ_double u) <= S (digits u).
Proof. induction u; cbn [Decimal.Little.double Decimal.Little.succ_double digits]; lia. Qed.
Lemma digits_pos p : digits (Pos.to_uint p) <= Pos.size_nat p.
Proof.
  unfold Pos.to_uint, Decimal.rev. rewrite digits_revapp. cbn [digits]. rewrite Nat.add_0_r.
  induction p; cbn [Pos.to_little_uint Pos.size_nat]; [| |cbn; lia]; destruct (digits_double (Pos.to_little_uint p)); lia.
Qed.
Lemma size_int64 p : (Zpos p <= 9223372036854775808)%Z -> Pos.size_nat p <= 64.
Proof.
  intro H. destruct (Nat.le_gt_cases (Pos.size_nat p) 64) as [A|A]; [exact A|exfalso].
  assert (G : forall q, Pos.size_nat q >= 1) by (destruct q; cbn; lia).
  assert (K : forall q, (2 ^ Z.of_nat (Pos.size_nat q - 1) <= Zpos q)%Z).
  { induction q; cbn [Pos.size_nat]; [| |cbn; lia]; specialize (G q); replace (Z.of_nat (S (Pos.size_nat q) - 1)) with (Z.succ (Z.of_nat (Pos.size_nat q - 1))) by lia; rewrite Z.pow_succ_r by lia; lia. }
  specialize (K p). assert (2 ^ 64 <= 2 ^ Z.of_nat (Pos.size_nat p - 1))%Z by (apply Z.pow_le_mono_r; lia). lia.
Qed.
Lemma dec_Z_short z : int64 z -> length (dec_Z z) <= 65.
Proof.
  intros [A B]. unfold min_int64, max_int64 in *. unfold dec_Z. destruct z as [|p|p]; [cbn; lia| |]; unfold dec_N; [cbn [Z.to_N]|cbn [length]]; rewrite digits_str; cbn [N.to_uint]; pose proof (digits_pos p); pose proof (size_int64 p); lia.
Qed.
Definition bare (a : ascii) : bool := negb (ceqb a quote) && negb (ceqb a bslash) && (32 <=? val a)%N && (val a <? 127)%N && negb (ceqb a "<"%char) && negb (ceqb a ">"%char) && negb (ceqb a "&"%char).
Lemma bare_ascii a : bare a = true -> (val a <? 128)%N = true /\ jw_ascii a = [a].
Proof. destruct a as [[] [] [] [] [] [] [] []]; vm_compute; intro; try discriminate; split; reflexivity. Qed.
Lemma jw_bare s : forallb bare s = true -> jw_chars s = s.
Proof.
  induction s as [|a s IH]; intro H; [reflexivity|]. cbn [forallb] in H. apply andb_true_iff in H as [H1 H2]. destruct (bare_ascii a H1) as [A B].
  cbn [jw_chars]. rewrite A, B, IH by exact H2. reflexivity.
Qed.
Lemma bare_impl f s : (forall a, f a = true -> bare a = true) -> forallb f s = true -> forallb bare s = true.
Proof. intros H F. rewrite forallb_forall in *. auto. Qed.
Lemma jw_opt_len key s : (len (jw_opt key s) <= len key + len (jw_string s))%N.
Proof. destruct s; [unfold jw_opt, len; cbn; lia|]. unfold jw_opt. rewrite len_app. lia. Qed.
Lemma jw_string_bare s : forallb bare s = true -> len (jw_string s) = (len s + 2)%N.
Proof. intro H. unfold jw_string. rewrite jw_bare by exact H. rewrite len_cons, len_app. change (len [quote]) with 1%N. lia. Qed.
Lemma hex_bare s : forallb bare (hex_encode s) = true.
Proof. apply (bare_impl is_lower_hex_char); [|apply hex_encode_lower]. intro a. destruct a as [[] [] [] [] [] [] [] []]; vm_compute; intro; try discriminate; reflexivity. Qed.
Lemma b64_bare s : forallb bare (b64_encode s) = true.
Proof. apply (bare_impl b64_text); [|apply b64_encode_text]. intro a. destruct a as [[] [] [] [] [] [] [] []]; vm_compute; intro; try discriminate; reflexivity. Qed.

Lemma nip44_len c m k n p : (forall k n m, length (p_chacha c k n m) = length m) -> (forall k m, length (p_hmac c k m) = 32) -> length n = 32 -> encrypt44 c m k n = Ok p ->
  len p = (4 * ((67 + calc_padding (len m) + 2) / 3))%N /\ forallb bare p = true.
Proof.
  intros HC HH HN. unfold encrypt44, nip44_encrypt. destruct (p_mkeys c k n) as [[a b] d]. destruct (_ || _); [discriminate|]. intro H.
  assert (b64_encode (byte_of 2 :: n ++ p_chacha c a b (pad m) ++ p_hmac c d (n ++ p_chacha c a b (pad m))) = p) as <- by congruence. split; [|apply b64_bare].
  rewrite b64_encode_length, len_cons, !len_app. assert (E : len (p_chacha c a b (pad m)) = len (pad m)) by (unfold len; rewrite HC; reflexivity). rewrite E, pad_length. unfold len at 1 3. rewrite HN, HH. do 2 f_equal. lia.
Qed.
Definition sized (c : prims) (sk : str) : Prop := forall s, hex_decode sk = Some s -> length (p_pub c s) = 33 /\ forall h sg, length h = 32 -> p_schnorr c s h = Some sg -> length sg = 64.
Lemma seal_len c a t kind ct seal : sized c a -> (forall m, length (p_sha c m) = 32) -> int64 t -> int64 kind -> forallb bare ct = true ->
  sign_with c a (mkEvent [] [] t kind [] ct []) = Ok seal -> (len ct <= len (encode_event seal) <= len ct + 600)%N.
Proof.
  intros HZ HH HT HK HB. unfold sign_with, sign. unfold sized in HZ. destruct (hex_decode a) as [s|]; [|discriminate]. destruct (HZ s eq_refl) as [HP HS]. destruct (p_schnorr c s _) as [sg|] eqn:E; [|discriminate]. intro H. match type of H with Ok ?x = Ok _ => assert (x = seal) as <- by congruence end. clear H.
  unfold encode_event. cbn [ev_id ev_pubkey ev_created_at ev_kind ev_tags ev_content ev_sig map]. rewrite !len_app, (jw_string_bare ct HB).
  assert (A : forall key x n, length x = n -> (len (jw_opt key (hex_encode x)) <= len key + 2 * N.of_nat n + 2)%N).
  { intros key x n HX. etransitivity; [apply jw_opt_len|]. rewrite jw_string_bare by apply hex_bare. unfold len at 2. rewrite hex_encode_length. lia. }
  pose proof (A (B ",""id"":") (p_sha c (serialize (mkEvent [] (hex_encode (skipn 1 (p_pub c s))) t kind [] ct []))) 32 (HH _)) as A1.
  pose proof (A (B ",""pubkey"":") (skipn 1 (p_pub c s)) 32 ltac:(rewrite skipn_length, HP; reflexivity)) as A2. pose proof (A (B ",""sig"":") sg 64 (HS _ _ (HH _) E)) as A3.
  assert (A4 : (len (dec_Z t) <= 65)%N) by (pose proof (dec_Z_short t HT); unfold len; lia).
  assert (A5 : (len (dec_Z kind) <= 65)%N) by (pose proof (dec_Z_short kind HK); unfold len; lia).
  change (len (B ",""id"":")) with 6%N in A1. change (len (B ",""pubkey"":")) with 10%N in A2. change (len (B ",""sig"":")) with 7%N in A3.
  change (len (B "{")) with 1%N. change (len (B """kind"":")) with 7%N. change (len (B ",""created_at"":")) with 14%N. change (len (B ",""tags"":")) with 8%N. change (len (jw_array [])) with 2%N. change (len (B ",""content"":")) with 11%N. change (len (B "}")) with 1%N. lia.
Qed.

(** Any signed event can stand where the seal should be, in a wrap of any shape. *)
Lemma any_seal c valid (L : lawful c valid) a b nk pa pb pn inner kind t (n nonce : str) : valid a -> valid b -> valid nk -> public_key c a = Ok pa -> public_key c b = Ok pb -> public_key c nk = Ok pn -> sized c a ->
  text_event inner -> (len (encode_event inner) <= 40960)%N -> int64 t -> int64 kind -> length n = 32 -> length nonce = 32 ->
  exists seal sct, ev_kind seal = kind /\ ev_pubkey seal = pa /\ sig_ok c seal = Ok true /\ decode_event (encode_event seal) = Ok seal /\
    obind (p_conv c pn b) (fun k => decrypt44 c sct k) = Ok (encode_event seal) /\ obind (p_conv c pa b) (fun k => decrypt44 c (ev_content seal) k) = Ok (encode_event inner) /\
    forall gw, ev_pubkey gw = pn -> ev_content gw = sct -> gift_unwrap c gw (fun o p => obind (p_conv c o b) (fun k => decrypt44 c p k)) = Ok (authored c inner pa).
Proof.
  intros VA VB VN PA PB PN HZ TI HL HT HK HN HN2. destruct (conv_pair c valid L a b pa pb VA VB PA PB) as (k & K1 & K2). destruct (conv_pair c valid L nk b pn pb VN VB PN PB) as (k2 & K3 & K4).
  assert (P : forall e, (1 <= len (encode_event e))%N) by (intro e; unfold encode_event, len; cbn; lia).
  destruct (enc44_ok c (encode_event inner) k n) as [ct E1]; [specialize (P inner); lia|]. destruct (sign_ok c valid L a (mkEvent [] [] t kind [] ct []) VA) as [seal E2].
  destruct (nip44_len c _ k n ct (l_chacha_len c valid L) (l_hmac c valid L) HN E1) as [Q1 Q2]. pose proof (seal_len c a t kind ct seal HZ (l_sha c valid L) HT HK Q2 E2) as Q3. rewrite Q1 in Q3.
  assert (R : (calc_padding (len (encode_event inner)) <= 40960)%N) by (transitivity (calc_padding 40960); [apply pad_mono; lia|vm_compute; discriminate]).
  assert (4 * ((67 + calc_padding (len (encode_event inner)) + 2) / 3) <= 54704)%N. { transitivity (4 * (41029 / 3))%N; [|vm_compute; discriminate]. apply N.mul_le_mono_l. apply N.div_le_mono; lia. }
  destruct (enc44_ok c (encode_event seal) k2 nonce) as [sct E3]; [specialize (P seal); lia|]. exists seal, sct.
  destruct (signed c valid L _ _ _ E2) as (S1 & S2 & S3 & S4 & S5 & S6 & S7). cbn [ev_content ev_kind] in *. assert (pa = ev_pubkey seal) by congruence.
  assert (T : text_event seal) by (apply (signed_text c _ _ _ E2); cbn [ev_content ev_tags ev_created_at ev_kind]; [apply (text44 c _ _ _ _ E1)|constructor|assumption|assumption]).
  assert (D1 : decrypt44 c sct k2 = Ok (encode_event seal)) by (apply (round44 c valid L _ _ nonce); assumption). assert (D2 : decrypt44 c ct k = Ok (encode_event inner)) by (apply (round44 c valid L _ _ n); assumption).
  split; [exact S5|]. split; [congruence|]. split; [exact S3|]. split; [apply event_round_trip; exact T|]. split; [rewrite K4; exact D1|]. split; [rewrite K2, S4; exact D2|].
  intros gw G1 G2. subst pa. apply unwrap_of; [rewrite G1, G2, K4; exact D1|exact T|exact S3|rewrite K2, S4; exact D2|exact TI].
Qed.
