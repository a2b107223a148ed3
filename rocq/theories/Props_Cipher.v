(** Properties C28-C32: NIP-44, NIP-04 and NIP-49. The primitives are arbitrary functions; each theorem names the laws it needs. *)
From Verif Require Import Base Bech32Model Nip19Model CipherModel CipherProofs.
Local Open Scope N_scope.

(** Toy primitives for the examples: a xor "cipher", a constant tag. *)
Definition toy_flip (s : str) : str := map (fun c => byte_of (N.lxor (val c) 0x55)) s.
Definition toy_keys (ck nonce : str) : str * str * str := (ck, nonce, ck ++ nonce).
Definition toy_chacha (k n s : str) : str := toy_flip s.
Definition toy_mac (k m : str) : str := firstn 32 (k ++ m ++ repeat zero 32).
Lemma toy_flip_twice s : toy_flip (toy_flip s) = s.
Proof.
  unfold toy_flip. rewrite map_map. rewrite <- (map_id s) at 2. apply map_ext. intro c. apply (xor_byte c (byte_of 0x55)).
Qed.
Lemma toy_flip_length s : length (toy_flip s) = length s.
Proof. apply map_length. Qed.
Lemma toy_mac_length k m : length (toy_mac k m) = 32%nat.
Proof. unfold toy_mac. apply firstn_length_le. rewrite !app_length, repeat_length. lia. Qed.

(** ** C28 *)
(** NIP-44's rule, said without logarithms: sizes up to 256 are rounded up to a multiple of 32; above that, to a multiple of one
    eighth of the next power of two. *)
Definition least_multiple (c n r : N) : Prop := (exists q, r = c * q) /\ n <= r /\ forall q, n <= c * q -> r <= c * q.

Theorem C28_padding_rule n : 1 <= n ->
  (n <= 256 -> least_multiple 32 n (calc_padding n)) /\
  (forall k, 8 <= k -> 2 ^ k < n <= 2 ^ (k + 1) -> least_multiple (2 ^ (k + 1) / 8) n (calc_padding n)).
Proof.
  intro H1. assert (G : forall c, 32 < n -> 2 ^ chunk_exp n = c -> least_multiple c n (calc_padding n)).
  { intros c H <-. rewrite calc_padding_eq by exact H. destruct (ceil_ge n (2 ^ chunk_exp n) (pow_pos _) ltac:(lia)) as [A _].
    split; [eexists; reflexivity|]. split; [exact A|]. intros q Hq. apply ceil_least; [apply pow_pos|lia|exact Hq]. }
  split.
  - intro H. destruct (N.ltb_spec 32 n) as [L|L].
    + apply G; [exact L|]. unfold chunk_exp. assert (A := N.log2_le_mono (n - 1) 255). change (N.log2 255) with 7 in A. rewrite N.max_l by lia. reflexivity.
    + unfold calc_padding. destruct (N.leb_spec n 32); [|lia]. split; [exists 1; reflexivity|]. split; [lia|]. intros q Hq. destruct q; lia.
  - intros k Hk [A C]. assert (P : 2 ^ 8 <= 2 ^ k) by (apply N.pow_le_mono_r; lia). change (2 ^ 8) with 256 in P.
    apply G; [lia|]. unfold chunk_exp. assert (Lg : N.log2 (n - 1) = k) by (apply N.log2_unique; [lia|rewrite <- N.add_1_r; lia]). rewrite Lg.
    change 8 with (2 ^ 3). rewrite <- N.pow_sub_r by lia. f_equal. lia.
Qed.
Theorem C28_padding_bounds n m :
  32 <= calc_padding n /\ n <= calc_padding n /\ (n <= m -> calc_padding n <= calc_padding m) /\ (32 < n -> calc_padding n < 2 * n).
Proof. split; [apply pad_ge32|]. split; [apply pad_ge|]. split; [apply pad_mono|apply pad_below_twice]. Qed.
Example C28_padding_example : map calc_padding [1; 32; 33; 64; 65; 256; 257; 1000; 65535] = [32; 32; 64; 64; 96; 256; 320; 1024; 65536].
Proof. vm_compute. reflexivity. Qed.

Theorem C28_round_trip : forall (keys : str -> str -> str * str * str) (chacha : str -> str -> str -> str) (hmac : str -> str -> str),
  (forall k n m, chacha k n (chacha k n m) = m) -> (forall k n m, length (chacha k n m) = length m) -> (forall k m, length (hmac k m) = 32%nat) ->
  forall plain ck nonce, length nonce = 32%nat -> 1 <= len plain <= 65535 ->
  exists p, nip44_encrypt keys chacha hmac plain ck nonce = Ok p /\ nip44_decrypt keys chacha hmac p ck = Ok plain.
Proof. intros. apply nip44_round; assumption. Qed.
(** With a nonce option: a given 32-byte nonce is used as it is, unless it is all zero; the random one otherwise. *)
Theorem C28_round_trip_with_option : forall (keys : str -> str -> str * str * str) (chacha : str -> str -> str -> str) (hmac : str -> str -> str),
  (forall k n m, chacha k n (chacha k n m) = m) -> (forall k n m, length (chacha k n m) = length m) -> (forall k m, length (hmac k m) = 32%nat) ->
  forall custom random plain ck, length random = 32%nat -> (forall c, custom = Some c -> length c = 32%nat) -> 1 <= len plain <= 65535 ->
  exists p, nip44_encrypt_with keys chacha hmac custom random plain ck = Ok p /\ nip44_decrypt keys chacha hmac p ck = Ok plain.
Proof.
  intros keys chacha hmac A1 A2 A3 custom random plain ck Hr Hc Hl. unfold nip44_encrypt_with. destruct custom as [c|]; [|apply nip44_round; assumption].
  rewrite (Hc c eq_refl). cbn [Nat.eqb negb]. destruct (seqb c (repeat zero 32)); apply nip44_round; try assumption. apply Hc, eq_refl.
Qed.
(** What a payload shows of its plaintext is the length class: equal lengths give payloads of equal size. *)
Theorem C28_size_from_length_only : forall (keys : str -> str -> str * str * str) (chacha : str -> str -> str -> str) (hmac : str -> str -> str),
  (forall k n m, length (chacha k n m) = length m) -> (forall k m, length (hmac k m) = 32%nat) ->
  forall m1 m2 ck1 ck2 n1 n2 p1 p2, length n1 = 32%nat -> length n2 = 32%nat -> len m1 = len m2 ->
  nip44_encrypt keys chacha hmac m1 ck1 n1 = Ok p1 -> nip44_encrypt keys chacha hmac m2 ck2 n2 = Ok p2 -> length p1 = length p2.
Proof.
  intros keys chacha hmac A2 A3. assert (K : forall m ck n p, length n = 32%nat -> nip44_encrypt keys chacha hmac m ck n = Ok p -> len p = 4 * ((67 + calc_padding (len m) + 2) / 3)).
  { intros m ck n p Hn. unfold nip44_encrypt. destruct (keys ck n) as [[k n'] h]. destruct (_ || _); [discriminate|].
    intro E. assert (Ep : b64_encode (byte_of 2 :: n ++ chacha k n' (pad m) ++ hmac h (n ++ chacha k n' (pad m))) = p) by congruence. rewrite <- Ep, b64_encode_length.
    f_equal. f_equal. rewrite len_cons, !len_app. assert (L1 := pad_length m). unfold len in L1 |- *. rewrite A2, A3, Hn. lia. }
  intros m1 m2 ck1 ck2 n1 n2 p1 p2 H1 H2 L E1 E2. apply K in E1, E2; try assumption. rewrite L in E1. unfold len in *. lia.
Qed.
(** Lengths outside 1..65535 are refused. *)
Theorem C28_other_lengths_refused keys chacha hmac plain ck nonce : len plain = 0 \/ 65535 < len plain -> nip44_encrypt keys chacha hmac plain ck nonce = Err.
Proof.
  intro H. unfold nip44_encrypt. destruct (keys ck nonce) as [[k n] h]. destruct (N.ltb_spec (len plain) 1); [reflexivity|]. destruct (N.ltb_spec 65535 (len plain)); [reflexivity|]. lia.
Qed.
Example C28_example :
  match nip44_encrypt toy_keys toy_chacha toy_mac (B "hello") (B "key") (repeat "n"%char 32) with
  | Ok p => nip44_decrypt toy_keys toy_chacha toy_mac p (B "key") = Ok (B "hello") /\ nip44_decrypt toy_keys toy_chacha toy_mac p (B "other") = Err
  | _ => False end.
Proof. vm_compute. split; reflexivity. Qed.
Print Assumptions C28_padding_rule.
Print Assumptions C28_padding_bounds.
Print Assumptions C28_round_trip.
Print Assumptions C28_round_trip_with_option.
Print Assumptions C28_size_from_length_only.
Print Assumptions C28_other_lengths_refused.

(** ** C29 *)
(** An accepted payload is version byte, nonce, ciphertext and the right tag; the decrypted padding block has the length prefix and the
    size that belongs to the returned plaintext. *)
Theorem C29_accepted_is_authentic : forall (keys : str -> str -> str * str * str) (chacha : str -> str -> str -> str) (hmac : str -> str -> str) p ck m,
  nip44_decrypt keys chacha hmac p ck = Ok m ->
  exists nonce ct mac k n h tail, b64_decode p = Some (byte_of 2 :: nonce ++ ct ++ mac) /\ length nonce = 32%nat /\ length mac = 32%nat /\
    keys ck nonce = (k, n, h) /\ mac = hmac h (nonce ++ ct) /\ 1 <= len m <= 65535 /\
    chacha k n ct = be16 (len m) ++ m ++ tail /\ len m + len tail = calc_padding (len m).
Proof. intros keys chacha hmac p ck m. apply nip44_sound. Qed.

(** The full claim, that encrypting the plaintext again under the payload's nonce gives the payload, holds when the padding bytes are
    zero and the text is the canonical base64 text. *)
Theorem C29_encrypts_to_itself_partial : forall (keys : str -> str -> str * str * str) (chacha : str -> str -> str -> str) (hmac : str -> str -> str),
  (forall k n m, chacha k n (chacha k n m) = m) -> forall p ck m,
  nip44_decrypt keys chacha hmac p ck = Ok m ->
  exists nonce ct mac tail k n h, b64_decode p = Some (byte_of 2 :: nonce ++ ct ++ mac) /\ keys ck nonce = (k, n, h) /\ chacha k n ct = be16 (len m) ++ m ++ tail /\
    (forallb (fun c => ceqb c zero) tail = true -> p = b64_encode (byte_of 2 :: nonce ++ ct ++ mac) -> nip44_encrypt keys chacha hmac m ck nonce = Ok p).
Proof.
  intros keys chacha hmac Inv p ck m H. destruct (nip44_sound _ _ _ _ _ _ H) as (nonce & ct & mac & k & n & h & tail & D & _ & _ & K & M & L & C & T).
  exists nonce, ct, mac, tail, k, n, h. split; [exact D|]. split; [exact K|]. split; [exact C|]. intros Z Hp. rewrite Hp at 1.
  apply (nip44_again keys chacha hmac Inv p ck m nonce ct mac k n h tail); try assumption.
  clear - Z. induction tail as [|c tail IH]; [reflexivity|]. cbn [forallb] in Z. apply andb_true_iff in Z as [Z1 Z2]. apply Ascii.eqb_eq in Z1. subst c. cbn [length repeat]. f_equal. apply IH, Z2.
Qed.

(** Two payloads for the same key, nonce and plaintext that are accepted although they are not what Encrypt writes: one with other bytes in
    the padding, one with a line break in the text. *)
Definition odd_padding : str :=
  let ct := toy_flip (be16 1 ++ B "a" ++ repeat "x"%char 31) in
  let nonce := repeat "n"%char 32 in
  b64_encode (byte_of 2 :: nonce ++ ct ++ toy_mac (B "key" ++ nonce) (nonce ++ ct)).
Theorem C29_padding_bytes_unchecked_refuted :
  exists p ck m, nip44_decrypt toy_keys toy_chacha toy_mac p ck = Ok m /\ nip44_encrypt toy_keys toy_chacha toy_mac m ck (repeat "n"%char 32) <> Ok p /\
    (exists r, b64_decode p = Some (byte_of 2 :: repeat "n"%char 32 ++ r)) /\ p = match b64_decode p with Some b => b64_encode b | None => [] end.
Proof.
  exists odd_padding, (B "key"), (B "a"). split; [vm_compute; reflexivity|]. split; [vm_compute; discriminate|].
  split; [eexists; vm_compute; reflexivity|vm_compute; reflexivity].
Qed.
Theorem C29_text_not_canonical_refuted :
  exists p q ck m, p <> q /\ nip44_decrypt toy_keys toy_chacha toy_mac p ck = Ok m /\ nip44_decrypt toy_keys toy_chacha toy_mac q ck = Ok m /\ b64_decode p = b64_decode q.
Proof.
  exists odd_padding, (odd_padding ++ [byte_of 10]), (B "key"), (B "a"). split; [vm_compute; discriminate|].
  split; [vm_compute; reflexivity|]. split; [vm_compute; reflexivity|vm_compute; reflexivity].
Qed.
(** The version byte and the marker for unknown encodings are refused whatever follows. *)
Theorem C29_other_versions_refused keys chacha hmac p ck v r : b64_decode p = Some (v :: r) -> v <> byte_of 2 -> nip44_decrypt keys chacha hmac p ck = Err.
Proof.
  intros D V. unfold nip44_decrypt. destruct (_ || _); [reflexivity|]. destruct (match p with [] => false | c :: _ => ceqb c "#" end); [reflexivity|]. rewrite D.
  destruct (N.eqb_spec (val v) 2) as [E|E]; [|reflexivity]. exfalso. apply V, val_inj. rewrite E. reflexivity.
Qed.
Theorem C29_wrong_tag_refused (keys : str -> str -> str * str * str) chacha hmac p ck nonce ct mac k n h :
  b64_decode p = Some (byte_of 2 :: nonce ++ ct ++ mac) -> length nonce = 32%nat -> length mac = 32%nat -> keys ck nonce = (k, n, h) ->
  mac <> hmac h (nonce ++ ct) -> nip44_decrypt keys chacha hmac p ck = Err.
Proof.
  intros D Hn Hm K M. unfold nip44_decrypt. destruct (_ || _); [reflexivity|]. destruct (match p with [] => false | c :: _ => ceqb c "#" end); [reflexivity|]. rewrite D.
  change (val (byte_of 2) =? 2) with true. cbn [negb]. destruct (_ || _); [reflexivity|].
  destruct (parts nonce ct mac Hn Hm) as (P1 & P2 & P3). rewrite P1, P2, P3, K. destruct (seqb_spec mac (hmac h (nonce ++ ct))); [contradiction|]. reflexivity.
Qed.
Example C29_example : nip44_decrypt toy_keys toy_chacha toy_mac odd_padding (B "key") = Ok (B "a") /\ nip44_decrypt toy_keys toy_chacha toy_mac odd_padding (B "kez") = Err.
Proof. vm_compute. split; reflexivity. Qed.
Print Assumptions C29_accepted_is_authentic.
Print Assumptions C29_encrypts_to_itself_partial.
Print Assumptions C29_padding_bytes_unchecked_refuted.
Print Assumptions C29_text_not_canonical_refuted.
Print Assumptions C29_other_versions_refused.
Print Assumptions C29_wrong_tag_refused.

(** ** C30 *)
Theorem C30_round_trip : forall aes_enc aes_dec : str -> str -> str,
  (forall k b, length b = 16%nat -> length (aes_enc k b) = 16%nat) -> (forall k b, length b = 16%nat -> aes_dec k (aes_enc k b) = b) ->
  forall m key iv, length key = 16%nat \/ length key = 24%nat \/ length key = 32%nat -> length iv = 16%nat ->
  exists c, nip04_encrypt aes_enc m key iv = Ok c /\ nip04_decrypt aes_dec c key = Ok m.
Proof.
  intros aes_enc aes_dec A1 A2 m key iv Hk Hi. apply nip04_round; try assumption. unfold aes_key. destruct Hk as [->|[->| ->]]; reflexivity.
Qed.
(** The text is base64 of a whole number of blocks, the separator and base64 of the iv. *)
Theorem C30_format : forall aes_enc : str -> str -> str,
  (forall k b, length b = 16%nat -> length (aes_enc k b) = 16%nat) ->
  forall m key iv c, length iv = 16%nat -> nip04_encrypt aes_enc m key iv = Ok c ->
  exists ct, c = b64_encode ct ++ B "?iv=" ++ b64_encode iv /\ length ct = (16 * (length m / 16 + 1))%nat.
Proof.
  intros aes_enc A1 m key iv c Hi. unfold nip04_encrypt. destruct (negb (aes_key key)); [discriminate|]. intro E. apply ok_inj in E. subst c.
  eexists. split; [reflexivity|]. set (p := (16 - length m mod 16)%nat). assert (L := Nat.div_mod (length m) 16). assert (L2 := Nat.mod_upper_bound (length m) 16).
  assert (D : length (m ++ repeat (byte_of (N.of_nat p)) p) = (16 * (length m / 16 + 1))%nat) by (rewrite app_length, repeat_length; unfold p; lia).
  rewrite D. rewrite (Nat.mul_comm 16), Nat.div_mul by lia. rewrite (Nat.mul_comm _ 16). apply (cbc_enc_length aes_enc aes_enc A1); assumption.
Qed.
Example C30_example :
  match nip04_encrypt (fun k b => toy_flip b) (B "attack at dawn, bring tea") (repeat "k"%char 32) (repeat "i"%char 16) with
  | Ok c => nip04_decrypt (fun k b => toy_flip b) c (repeat "k"%char 32) = Ok (B "attack at dawn, bring tea")
  | _ => False end.
Proof. vm_compute. reflexivity. Qed.
Print Assumptions C30_round_trip.
Print Assumptions C30_format.

(** ** C31 *)
(** nip44.Decrypt crashes on exactly one kind of input: a text of 132 to 87472 characters that decodes to nothing, that is, line breaks only. *)
Theorem C31_nip44_panics_only_on_empty_partial keys chacha hmac p ck : nip44_decrypt keys chacha hmac p ck = Panic -> forall c, In c p -> c = byte_of 10 \/ c = byte_of 13.
Proof.
  intro H. apply nip44_panic in H. unfold b64_decode in H.
  assert (F : filter (fun c => negb (is_eol c)) p = []).
  { destruct (filter _ p) as [|a [|b [|c [|d r]]]]; cbn [b64_groups] in H; try reflexivity; try discriminate.
    destruct (b64_val a), (b64_val b); try discriminate. destruct (b64_val c).
    - destruct (b64_val d); [destruct (b64_groups r); discriminate|]. destruct (ceqb d "="); [|discriminate]. destruct r; discriminate.
    - destruct (_ && _); [|discriminate]. destruct r; discriminate. }
  intros c Hc. destruct (is_eol c) eqn:E.
  - unfold is_eol in E. apply orb_true_iff in E as [E|E]; apply N.eqb_eq in E; [left|right]; apply val_inj; rewrite E; reflexivity.
  - exfalso. assert (X : In c (filter (fun c => negb (is_eol c)) p)) by (apply filter_In; rewrite E; auto). rewrite F in X. exact X.
Qed.
Theorem C31_nip44_no_crash_refuted : exists p, forall keys chacha hmac ck, nip44_decrypt keys chacha hmac p ck = Panic.
Proof. exists (repeat (byte_of 10) 132). intros. vm_compute. reflexivity. Qed.
(** nip04.Decrypt crashes when the decoded iv is not one block or the decoded ciphertext is not whole blocks, and only then. *)
Theorem C31_nip04_panics_only_on_bad_sizes_partial aes_dec content key : nip04_decrypt aes_dec content key = Panic ->
  exists a b ct iv, has_prefix content (a ++ B "?iv=" ++ b) = true /\ b64_decode a = Some ct /\ b64_decode b = Some iv /\
    (length iv <> 16%nat \/ (length ct mod 16)%nat <> 0%nat).
Proof.
  intro H. apply nip04_panic in H as (p0 & rest & ct & iv & E0 & D0 & D1 & L).
  assert (K : forall s a b, cut_str iv_sep s = Some (a, b) -> s = a ++ iv_sep ++ b).
  { induction s as [|c s IH]; intros a b; cbn [cut_str].
    - discriminate.
    - destruct (has_prefix (c :: s) iv_sep) eqn:P.
      + intro E. apply has_prefix_spec in P as [t Ht]. rewrite Ht in E. assert (Eb : skipn (length iv_sep) (iv_sep ++ t) = b /\ [] = a) by (split; congruence).
        destruct Eb as [Eb Ea]. rewrite drop_app in Eb by reflexivity. subst b a. rewrite Ht. reflexivity.
      + destruct (cut_str iv_sep s) as [[x y]|]; [|discriminate]. intro E. injection E as <- <-. cbn [app]. f_equal. apply IH. reflexivity. }
  apply K in E0. subst content. destruct (cut_str iv_sep rest) as [[x y]|] eqn:E1.
  - apply K in E1. subst rest. exists p0, x, ct, iv. split; [|auto]. apply has_prefix_spec. exists (iv_sep ++ y). rewrite <- !app_assoc. reflexivity.
  - exists p0, rest, ct, iv. split; [|auto]. apply has_prefix_spec. exists []. rewrite app_nil_r. reflexivity.
Qed.
Theorem C31_nip04_no_crash_refuted : exists c1 c2, forall aes_dec key, length key = 32%nat -> nip04_decrypt aes_dec c1 key = Panic /\ nip04_decrypt aes_dec c2 key = Panic.
Proof.
  exists (B "AAAA?iv="), (B "AAAA?iv=AAAAAAAAAAAAAAAAAAAAAA=="). intros aes_dec key H.
  assert (K : aes_key key = true) by (unfold aes_key; rewrite H; reflexivity).
  unfold nip04_decrypt. split.
  - change (cut_str iv_sep (B "AAAA?iv=")) with (Some (B "AAAA", @nil ascii)). cbv beta iota. rewrite K. vm_compute. reflexivity.
  - replace (cut_str iv_sep (B "AAAA?iv=AAAAAAAAAAAAAAAAAAAAAA==")) with (Some (B "AAAA", B "AAAAAAAAAAAAAAAAAAAAAA==")) by (vm_compute; reflexivity).
    cbv beta iota. rewrite K. vm_compute. reflexivity.
Qed.
(** Exactly which texts crash nip44.Decrypt, whatever the key: line breaks only, as many as pass the length check. *)
Theorem C31_nip44_panics_exactly keys chacha hmac p ck : nip44_decrypt keys chacha hmac p ck = Panic <->
  132 <= len p <= 87472 /\ (forall c, In c p -> c = byte_of 10 \/ c = byte_of 13).
Proof.
  split.
  - intro H. split; [|exact (C31_nip44_panics_only_on_empty_partial _ _ _ _ _ H)]. unfold nip44_decrypt in H.
    destruct (N.ltb_spec (len p) 132); [discriminate|]. destruct (N.ltb_spec 87472 (len p)); [discriminate|]. lia.
  - intros [[L1 L2] A]. unfold nip44_decrypt. destruct (N.ltb_spec (len p) 132); [lia|]. destruct (N.ltb_spec 87472 (len p)); [lia|]. cbn [orb].
    assert (F : filter (fun c => negb (is_eol c)) p = []).
    { clear L1 L2 H H0. induction p as [|c p IH]; [reflexivity|]. cbn [filter]. destruct (A c (or_introl eq_refl)) as [->| ->]; [change (negb (is_eol (byte_of 10))) with false|change (negb (is_eol (byte_of 13))) with false]; cbv iota; apply IH; intros d Hd; apply A; right; exact Hd. }
    unfold b64_decode. rewrite F. cbn [b64_groups]. destruct p as [|c p]; [reflexivity|]. destruct (A c (or_introl eq_refl)) as [->| ->]; reflexivity.
Qed.
Example C31_nip44_panics_exactly_applies : 132 <= len (repeat (byte_of 10) 100 ++ repeat (byte_of 13) 40) <= 87472 /\ (forall c, In c (repeat (byte_of 10) 100 ++ repeat (byte_of 13) 40) -> c = byte_of 10 \/ c = byte_of 13).
Proof. split; [vm_compute; split; discriminate|]. intros c H. apply in_app_iff in H as [H|H]; apply repeat_spec in H; auto. Qed.
(** Exactly which texts crash nip04.Decrypt. The text is cut at the first "?iv=" and again at the next one, if any; both parts are base64; the key is an AES key; and one of the two sizes is wrong. *)
Definition iv_free (a : str) : Prop := forall x y, a <> x ++ B "?iv=" ++ y.
(** a is what stands before the first "?iv=" of s: none starts earlier, not even one that overlaps the cut *)
Definition cut_first (s a b : str) : Prop := s = a ++ B "?iv=" ++ b /\ forall x y, s = x ++ B "?iv=" ++ y -> (length a <= length x)%nat.
Lemma cut_str_first s a b : cut_str iv_sep s = Some (a, b) <-> cut_first s a b.
Proof.
  unfold cut_first. change (B "?iv=") with iv_sep. revert a b. induction s as [|c s IH]; intros a b.
  - split; [discriminate|]. intros [E _]. destruct a; discriminate.
  - cbn [cut_str]. destruct (has_prefix (c :: s) iv_sep) eqn:P.
    + apply has_prefix_spec in P as [t Ht]. rewrite Ht. rewrite drop_app by reflexivity. split.
      * intro E. assert (a = [] /\ b = t) as [-> ->] by (split; congruence). split; [reflexivity|]. cbn. intros; lia.
      * intros [E M]. specialize (M [] t eq_refl). destruct a; [|cbn in M; lia]. change ([] ++ iv_sep ++ b) with (iv_sep ++ b) in E. assert (E2 : t = b) by exact (app_inv_head _ _ _ E). subst t. reflexivity.
    + assert (N0 : forall y, c :: s <> iv_sep ++ y) by (intros y Hy; assert (Q : has_prefix (c :: s) iv_sep = true) by (apply has_prefix_spec; exists y; exact Hy); congruence).
      destruct (cut_str iv_sep s) as [[x y]|] eqn:C.
      * assert (K := proj1 (IH x y) eq_refl). split.
        -- intro E. assert (a = c :: x /\ b = y) as [-> ->] by (split; congruence). destruct K as [K1 K2]. split; [rewrite K1 at 1; reflexivity|].
           intros [|d x'] y' E'; [destruct (N0 _ E')|]. injection E' as _ E'. cbn. apply le_n_S. exact (K2 _ _ E').
        -- intros [E M]. destruct a as [|d a]; [destruct (N0 _ E)|]. injection E as <- E. assert (X : cut_str iv_sep s = Some (a, b)).
           { rewrite C. apply IH. split; [exact E|]. intros x' y' E'. specialize (M (c :: x') y'). cbn in M. apply le_S_n. apply M. rewrite E'. reflexivity. }
           rewrite C in X. injection X as -> ->. reflexivity.
      * split; [discriminate|]. intros [E M]. destruct a as [|d a]; [destruct (N0 _ E)|]. injection E as <- E. assert (X : None = Some (a, b)); [|discriminate].
        apply IH. split; [exact E|]. intros x' y' E'. specialize (M (c :: x') y'). cbn in M. apply le_S_n. apply M. rewrite E'. reflexivity.
Qed.
Lemma cut_str_none s : cut_str iv_sep s = None <-> iv_free s.
Proof.
  split.
  - intros H x y E. revert s H E. induction x as [|c x IH]; intros s H E; subst s.
    + cbn [app] in H. change (B "?iv=") with iv_sep in H. cbn [cut_str app iv_sep] in H. destruct (has_prefix (iv_sep ++ y) iv_sep) eqn:P; [|rewrite (proj2 (has_prefix_spec _ _) (ex_intro _ y eq_refl)) in P; discriminate].
      change (iv_sep ++ y) with ("?"%char :: "i"%char :: "v"%char :: "="%char :: y) in *. cbn [cut_str] in H. rewrite P in H. discriminate.
    + cbn [app cut_str] in H. destruct (has_prefix _ _); [discriminate|]. destruct (cut_str iv_sep (x ++ _)) as [[u v]|] eqn:C; [discriminate|]. exact (IH _ C eq_refl).
  - intro H. destruct (cut_str iv_sep s) as [[a b]|] eqn:C; [|reflexivity]. apply cut_str_first in C as [E _]. destruct (H a b E).
Qed.
Theorem C31_nip04_panics_exactly aes_dec content key : nip04_decrypt aes_dec content key = Panic <->
  exists a rest b ct iv, cut_first content a rest /\ ((iv_free rest /\ b = rest) \/ exists more, cut_first rest b more) /\
    b64_decode a = Some ct /\ b64_decode b = Some iv /\ (length key = 16%nat \/ length key = 24%nat \/ length key = 32%nat) /\
    (length iv <> 16%nat \/ (length ct mod 16)%nat <> 0%nat).
Proof.
  split.
  - unfold nip04_decrypt. destruct (cut_str iv_sep content) as [[p0 rest]|] eqn:C; [|discriminate]. apply cut_str_first in C.
    set (p1 := match cut_str iv_sep rest with Some (a, _) => a | None => rest end).
    assert (D : (iv_free rest /\ p1 = rest) \/ exists more, cut_first rest p1 more).
    { unfold p1. destruct (cut_str iv_sep rest) as [[u v]|] eqn:C2; [right; exists v; apply cut_str_first; exact C2|left; split; [apply cut_str_none; exact C2|reflexivity]]. }
    clearbody p1. destruct (b64_decode p0) as [ct|] eqn:E0; [|discriminate]. destruct (b64_decode p1) as [iv|] eqn:E1; [|discriminate].
    unfold aes_key. destruct (Nat.eqb_spec (length key) 16) as [K|K], (Nat.eqb_spec (length key) 24) as [K2|K2], (Nat.eqb_spec (length key) 32) as [K3|K3]; cbn [orb negb]; try discriminate;
    (destruct (Nat.eqb_spec (length iv) 16) as [H|H]; cbn [negb];
     [destruct (Nat.eqb_spec (length ct mod 16) 0) as [H2|H2]; cbn [negb]; [destruct (rev _); [discriminate|]; destruct (Nat.ltb _ _); discriminate|]|];
     intros _; exists p0, rest, p1, ct, iv; repeat (split; [assumption || tauto|]); tauto).
  - intros (a & rest & b & ct & iv & C & D & E0 & E1 & K & L). unfold nip04_decrypt. rewrite (proj2 (cut_str_first _ _ _) C).
    replace (match cut_str iv_sep rest with Some (a, _) => a | None => rest end) with b by (destruct D as [[F ->]|[more F]]; [rewrite (proj2 (cut_str_none _) F)|rewrite (proj2 (cut_str_first _ _ _) F)]; reflexivity).
    rewrite E0, E1. replace (aes_key key) with true by (unfold aes_key; destruct K as [->|[->| ->]]; reflexivity). cbn [negb].
    destruct (Nat.eqb_spec (length iv) 16) as [H|H]; cbn [negb]; [|reflexivity]. destruct (Nat.eqb_spec (length ct mod 16) 0) as [H2|H2]; cbn [negb]; [|reflexivity]. tauto.
Qed.
Example C31_nip04_panics_exactly_applies : nip04_decrypt (fun _ b => b) (B "AAAA?iv=AAAA?iv=?iv=") (repeat "k"%char 16) = Panic /\ nip04_decrypt (fun _ b => b) (B "AAAA?iv=AAAA?iv=?iv=") (repeat "k"%char 15) = Err.
Proof. vm_compute. split; reflexivity. Qed.
Print Assumptions C31_nip44_panics_only_on_empty_partial.
Print Assumptions C31_nip44_no_crash_refuted.
Print Assumptions C31_nip04_panics_only_on_bad_sizes_partial.
Print Assumptions C31_nip04_no_crash_refuted.

(** ** C32 *)
Theorem C32_round_trip : forall (get_key : str -> str -> Z -> option str) (seal : str -> str -> str -> str -> str) (open : str -> str -> str -> str -> option str),
  (forall k n m ad, open k n (seal k n m ad) ad = Some m) -> (forall k n m ad, length (seal k n m ad) = (length m + 16)%nat) ->
  forall sk password logn ksb salt nonce, length sk = 32%nat -> length salt = 16%nat -> length nonce = 24%nat -> logn < 256 ->
  get_key password salt (cost logn) <> None ->
  exists c, nip49_encrypt get_key seal (hex_encode sk) password logn ksb salt nonce = Ok c /\ nip49_decrypt get_key open c password = Ok (hex_encode sk).
Proof.
  intros get_key seal open A1 A2 sk password logn ksb salt nonce H1 H2 H3 H4 H5. destruct (get_key password salt (cost logn)) as [key|] eqn:G; [|congruence].
  destruct (nip49_bytes_round get_key seal open A1 A2 sk password logn ksb salt nonce key) as (c & E1 & E2); try assumption.
  exists c. unfold nip49_encrypt. rewrite hex_decode_encode, H1. cbn [Nat.eqb negb]. split; [exact E1|]. unfold nip49_decrypt. rewrite E2. reflexivity.
Qed.
(** When the key derivation refuses the cost, encryption reports it. *)
Theorem C32_bad_cost_refused get_key seal sk password logn ksb salt nonce : get_key password salt (cost logn) = None -> nip49_encrypt get_key seal sk password logn ksb salt nonce = Err.
Proof. intro H. unfold nip49_encrypt. destruct (hex_decode sk); [|reflexivity]. destruct (negb _); [reflexivity|]. unfold nip49_encrypt_bytes. rewrite H. reflexivity. Qed.
(** The key is derived at the cost of two to the given power, in both directions; from 63 on, and at 0, scrypt refuses what it is given. *)
Theorem C32_cost gk gk' seal sk password logn ksb salt nonce : logn < 63 -> gk password salt (2 ^ Z.of_N logn)%Z = gk' password salt (2 ^ Z.of_N logn)%Z -> nip49_encrypt gk seal sk password logn ksb salt nonce = nip49_encrypt gk' seal sk password logn ksb salt nonce.
Proof.
  intros H E. unfold nip49_encrypt, nip49_encrypt_bytes, cost. apply N.ltb_lt in H. rewrite H, E. reflexivity.
Qed.
Theorem C32_cost_too_big get_key seal sk password logn ksb salt nonce : (forall p s n, (n <= 1)%Z -> get_key p s n = None) -> 63 <= logn \/ logn = 0 -> nip49_encrypt get_key seal sk password logn ksb salt nonce = Err.
Proof.
  intros G H. apply C32_bad_cost_refused, G. unfold cost. destruct H as [H| ->]; [|vm_compute; discriminate]. destruct (N.ltb_spec logn 63); [lia|]. vm_compute. discriminate.
Qed.
Definition toy_key_ (password salt : str) (n : Z) : option str := if Z.leb n 1 then None else Some (password ++ salt).
Example C32_cost_example : nip49_encrypt toy_key_ (fun _ _ m _ => m) (hex_encode (repeat "s"%char 32)) (B "pw") 63 2 (repeat "a"%char 16) (repeat "b"%char 24) = Err /\ (forall p s n, (n <= 1)%Z -> toy_key_ p s n = None).
Proof. split; [vm_compute; reflexivity|]. intros p s n H. unfold toy_key_. destruct (Z.leb_spec n 1); [reflexivity|lia]. Qed.

Definition toy_key (password salt : str) (n : Z) : option str := if Z.leb n 1 then None else Some (password ++ salt).
Definition toy_seal16 (k n m ad : str) : str := toy_flip m ++ firstn 16 (toy_mac k (n ++ ad ++ m)).
Definition toy_open (k n c ad : str) : option str :=
  let m := toy_flip (firstn (length c - 16) c) in if seqb (toy_seal16 k n m ad) c then Some m else None.
Example C32_example :
  match nip49_encrypt toy_key toy_seal16 (hex_encode (repeat "s"%char 32)) (B "pw") 16 2 (repeat "a"%char 16) (repeat "b"%char 24) with
  | Ok c => nip49_decrypt toy_key toy_open c (B "pw") = Ok (hex_encode (repeat "s"%char 32)) /\ nip49_decrypt toy_key toy_open c (B "pv") = Err
  | _ => False end.
Proof. vm_compute. split; reflexivity. Qed.
(** Decrypt crashes on a code with too little data. *)
Theorem C32_short_code_panics_refuted : exists c, forall get_key open password, nip49_decrypt get_key open c password = Panic.
Proof.
  exists (match to_code (B "ncryptsec") (byte_of 2 :: repeat "a"%char 10) with Ok c => c | _ => [] end). intros. vm_compute. reflexivity.
Qed.
(** EncryptBytes accepts a key of any length and cuts its sealed form to 48 bytes: what it writes for a 33-byte key does not open. *)
Theorem C32_other_key_sizes_lost_refuted : exists sk password logn ksb salt nonce c,
  nip49_encrypt_bytes toy_key toy_seal16 sk password logn ksb salt nonce = Ok c /\ nip49_decrypt_bytes toy_key toy_open c password = Err.
Proof.
  exists (repeat "s"%char 33), (B "pw"), 16, 2, (repeat "a"%char 16), (repeat "b"%char 24). eexists. split; [vm_compute; reflexivity|]. vm_compute. reflexivity.
Qed.
Print Assumptions C32_round_trip.
Print Assumptions C32_bad_cost_refused.
Print Assumptions C32_cost.
Print Assumptions C32_cost_too_big.
Print Assumptions C32_short_code_panics_refuted.
Print Assumptions C32_other_key_sizes_lost_refuted.

Print Assumptions C31_nip44_panics_exactly.
Print Assumptions C31_nip04_panics_exactly.
