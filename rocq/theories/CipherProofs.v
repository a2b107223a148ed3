(** Proofs about the encrypted payloads. *)
From Verif Require Import Base Bech32Model Bech32Proofs Nip19Model Nip19Proofs CipherModel.
Local Open Scope N_scope.

(** ** base64 *)
Lemma below64 (P : N -> bool) : forallb P (map N.of_nat (seq 0 64)) = true -> forall v, v < 64 -> P v = true.
Proof. intros H v Hv. apply (below 64 P H). exact Hv. Qed.
Lemma b64_char_spec v : v < 64 -> b64_val (b64_char v) = Some v /\ is_eol (b64_char v) = false.
Proof.
  intro Hv. assert (H : (match b64_val (b64_char v) with Some w => w =? v | None => false end) && negb (is_eol (b64_char v)) = true).
  { apply (below64 (fun v => (match b64_val (b64_char v) with Some w => w =? v | None => false end) && negb (is_eol (b64_char v)))); [vm_compute; reflexivity|exact Hv]. }
  apply andb_true_iff in H as [H1 H2]. destruct (b64_val (b64_char v)); [|discriminate]. apply N.eqb_eq in H1. subst. split; [reflexivity|].
  apply negb_true_iff, H2.
Qed.
Lemma b64_eq_val : b64_val "="%char = None.
Proof. reflexivity. Qed.

Lemma three_ind (P : str -> Prop) : P [] -> (forall a, P [a]) -> (forall a b, P [a; b]) -> (forall a b c r, P r -> P (a :: b :: c :: r)) -> forall s, P s.
Proof.
  intros H0 H1 H2 H3. fix go 1. intros [|a [|b [|c r]]].
  - exact H0.
  - apply H1.
  - apply H2.
  - apply H3, go.
Qed.

Lemma digits24 v : v < 16777216 -> v / 262144 < 64 /\ v / 4096 mod 64 < 64 /\ v / 64 mod 64 < 64 /\ v mod 64 < 64 /\
  v / 262144 * 262144 + v / 4096 mod 64 * 4096 + v / 64 mod 64 * 64 + v mod 64 = v.
Proof.
  intro H. assert (E1 := N.div_mod v 64). assert (E2 := N.div_mod (v / 64) 64). assert (E3 := N.div_mod (v / 4096) 64).
  assert (L1 := N.mod_lt v 64). assert (L2 := N.mod_lt (v / 64) 64). assert (L3 := N.mod_lt (v / 4096) 64).
  assert (L4 : v / 262144 < 64) by (apply N.div_lt_upper_bound; lia).
  replace (v / 4096) with (v / 64 / 64) in * by (rewrite N.div_div by lia; reflexivity).
  replace (v / 262144) with (v / 64 / 64 / 64) in * by (rewrite !N.div_div by lia; reflexivity).
  repeat split; try lia.
Qed.
Lemma three_back a b c : three (val a * 65536 + val b * 256 + val c) = [a; b; c].
Proof.
  assert (A := val_lt a). assert (A1 := val_lt b). assert (A2 := val_lt c). unfold three. set (v := val a * 65536 + val b * 256 + val c).
  assert (E1 : v / 256 = val a * 256 + val b) by (symmetry; apply (N.div_unique v 256 _ (val c)); unfold v; lia).
  assert (E2 : v mod 256 = val c) by (symmetry; apply (N.mod_unique v 256 (val a * 256 + val b)); unfold v; lia).
  assert (E3 : v / 65536 = val a) by (symmetry; apply (N.div_unique v 65536 _ (val b * 256 + val c)); unfold v; lia).
  rewrite E3, E1, E2. replace ((val a * 256 + val b) mod 256) with (val b) by (apply (N.mod_unique _ 256 (val a)); lia).
  rewrite !byte_of_val. reflexivity.
Qed.

Lemma low_zero v k : v mod k = 0 -> k <> 0 -> v / k * k = v.
Proof. intros H K. assert (E := N.div_mod v k K). lia. Qed.

Lemma b64_groups_encode s : b64_groups (b64_encode s) = Some s.
Proof.
  induction s as [| a | a b | a b c r IH] using three_ind.
  - reflexivity.
  - cbn [b64_encode]. set (v := val a * 65536). assert (A := val_lt a).
    destruct (digits24 v) as (D1 & D2 & D3 & D4 & D5); [unfold v; lia|].
    assert (M1 : v mod 64 = 0) by (symmetry; apply (N.mod_unique v 64 (val a * 1024)); unfold v; lia).
    assert (M2 : v / 64 mod 64 = 0).
    { replace (v / 64) with (val a * 1024) by (apply (N.div_unique v 64 _ 0); unfold v; lia). symmetry; apply (N.mod_unique _ 64 (val a * 16)); lia. }
    cbn [b64_groups]. destruct (b64_char_spec _ D1) as [-> _]. destruct (b64_char_spec _ D2) as [-> _]. rewrite b64_eq_val. cbn [ceqb Ascii.eqb Bool.eqb andb].
    replace (v / 262144 * 262144 + v / 4096 mod 64 * 4096) with (val a * 65536 + val zero * 256 + val zero).
    { rewrite three_back. reflexivity. }
    change (val zero) with 0. unfold v in *. lia.
  - cbn [b64_encode]. set (v := val a * 65536 + val b * 256). assert (A := val_lt a). assert (A1 := val_lt b).
    destruct (digits24 v) as (D1 & D2 & D3 & D4 & D5); [unfold v; lia|].
    assert (M1 : v mod 64 = 0) by (symmetry; apply (N.mod_unique v 64 (val a * 1024 + val b * 4)); unfold v; lia).
    cbn [b64_groups]. destruct (b64_char_spec _ D1) as [-> _]. destruct (b64_char_spec _ D2) as [-> _]. destruct (b64_char_spec _ D3) as [-> _]. rewrite b64_eq_val. cbn [ceqb Ascii.eqb Bool.eqb andb].
    replace (v / 262144 * 262144 + v / 4096 mod 64 * 4096 + v / 64 mod 64 * 64) with (val a * 65536 + val b * 256 + val zero).
    { rewrite three_back. reflexivity. }
    change (val zero) with 0. unfold v in *. lia.
  - cbn [b64_encode]. set (v := val a * 65536 + val b * 256 + val c). assert (A := val_lt a). assert (A1 := val_lt b). assert (A2 := val_lt c).
    destruct (digits24 v) as (D1 & D2 & D3 & D4 & D5); [unfold v; lia|].
    cbn [b64_groups]. destruct (b64_char_spec _ D1) as [-> _]. destruct (b64_char_spec _ D2) as [-> _]. destruct (b64_char_spec _ D3) as [-> _]. destruct (b64_char_spec _ D4) as [-> _].
    rewrite D5, IH. unfold v. rewrite three_back. reflexivity.
Qed.

Lemma b64_encode_clean s : forallb (fun c => negb (is_eol c)) (b64_encode s) = true.
Proof.
  assert (K : forall v, v < 64 -> negb (is_eol (b64_char v)) = true) by (intros v H; destruct (b64_char_spec v H) as [_ ->]; reflexivity).
  induction s as [| a | a b | a b c r IH] using three_ind; cbn [b64_encode].
  - reflexivity.
  - destruct (digits24 (val a * 65536)) as (D1 & D2 & D3 & D4 & D5); [assert (A := val_lt a); lia|]. cbn [forallb]. rewrite !K by assumption. reflexivity.
  - destruct (digits24 (val a * 65536 + val b * 256)) as (D1 & D2 & D3 & D4 & D5); [assert (A := val_lt a); assert (A1 := val_lt b); lia|]. cbn [forallb]. rewrite !K by assumption. reflexivity.
  - destruct (digits24 (val a * 65536 + val b * 256 + val c)) as (D1 & D2 & D3 & D4 & D5); [assert (A := val_lt a); assert (A1 := val_lt b); assert (A2 := val_lt c); lia|].
    cbn [forallb]. rewrite !K by assumption. exact IH.
Qed.
Lemma filter_all {A} (p : A -> bool) l : forallb p l = true -> filter p l = l.
Proof. induction l as [|x l IH]; cbn; [reflexivity|]. intro H. apply andb_true_iff in H as [-> H]. rewrite IH by exact H. reflexivity. Qed.
Lemma b64_decode_encode s : b64_decode (b64_encode s) = Some s.
Proof. unfold b64_decode. rewrite filter_all by apply b64_encode_clean. apply b64_groups_encode. Qed.
Lemma b64_encode_length s : len (b64_encode s) = 4 * ((len s + 2) / 3).
Proof.
  unfold len. induction s as [| a | a b | a b c r IH] using three_ind; try reflexivity. cbn [b64_encode length].
  rewrite !Nat2N.inj_succ in *. rewrite <- !N.add_1_r in *. replace (N.of_nat (length r) + 1 + 1 + 1 + 2) with (N.of_nat (length r) + 2 + 1 * 3) by lia.
  rewrite N.div_add by lia. lia.
Qed.
Definition b64_text (c : ascii) : bool := match b64_val c with Some _ => true | None => ceqb c "="%char end.
Lemma b64_char_text v : v < 64 -> b64_text (b64_char v) = true.
Proof. intro H. unfold b64_text. destruct (b64_char_spec v H) as [-> _]. reflexivity. Qed.
Lemma b64_encode_text s : forallb b64_text (b64_encode s) = true.
Proof.
  induction s as [| a | a b | a b c r IH] using three_ind; cbn [b64_encode].
  - reflexivity.
  - destruct (digits24 (val a * 65536)) as (D1 & D2 & D3 & D4 & D5); [assert (A := val_lt a); lia|]. cbn [forallb]. rewrite !b64_char_text by assumption. reflexivity.
  - destruct (digits24 (val a * 65536 + val b * 256)) as (D1 & D2 & D3 & D4 & D5); [assert (A := val_lt a); assert (A1 := val_lt b); lia|]. cbn [forallb]. rewrite !b64_char_text by assumption. reflexivity.
  - destruct (digits24 (val a * 65536 + val b * 256 + val c)) as (D1 & D2 & D3 & D4 & D5); [assert (A := val_lt a); assert (A1 := val_lt b); assert (A2 := val_lt c); lia|].
    cbn [forallb]. rewrite !b64_char_text by assumption. exact IH.
Qed.

(** ** NIP-44 padding *)
Definition chunk_exp (n : N) : N := N.max 5 (N.log2 (n - 1) - 2).
Lemma calc_padding_eq n : 32 < n -> calc_padding n = 2 ^ chunk_exp n * ((n - 1) / 2 ^ chunk_exp n + 1).
Proof.
  intro H. unfold calc_padding. destruct (N.leb_spec n 32); [lia|].
  assert (L : 5 <= N.log2 (n - 1)) by (change 5 with (N.log2 32); apply N.log2_le_mono; lia).
  assert (E : N.max 32 (2 ^ (N.log2 (n - 1) + 1) / 8) = 2 ^ chunk_exp n).
  { unfold chunk_exp. change 8 with (2 ^ 3). rewrite <- N.pow_sub_r by lia. replace (N.log2 (n - 1) + 1 - 3) with (N.log2 (n - 1) - 2) by lia.
    change 32 with (2 ^ 5). destruct (N.max_spec 5 (N.log2 (n - 1) - 2)) as [[A ->]|[A ->]].
    - apply N.max_r. apply N.pow_le_mono_r; lia.
    - apply N.max_l. apply N.pow_le_mono_r; lia. }
  rewrite E. reflexivity.
Qed.
Lemma pow_pos k : 0 < 2 ^ k.
Proof. apply N.neq_0_lt_0, N.pow_nonzero. lia. Qed.
Lemma ceil_ge n c : 0 < c -> 0 < n -> n <= c * ((n - 1) / c + 1) < n + c.
Proof. intros Hc Hn. assert (E := N.div_mod (n - 1) c). assert (L := N.mod_lt (n - 1) c). lia. Qed.
Lemma ceil_least n c q : 0 < c -> 0 < n -> n <= c * q -> c * ((n - 1) / c + 1) <= c * q.
Proof.
  intros Hc Hn Hq. apply N.mul_le_mono_l. assert ((n - 1) / c < q); [|lia]. apply N.div_lt_upper_bound; lia.
Qed.
Lemma pad_ge n : n <= calc_padding n.
Proof.
  destruct (N.ltb_spec 32 n) as [H|H].
  - rewrite calc_padding_eq by exact H. apply ceil_ge; [apply pow_pos|lia].
  - unfold calc_padding. destruct (N.leb_spec n 32); lia.
Qed.
Lemma pad_ge32 n : 32 <= calc_padding n.
Proof. destruct (N.ltb_spec 32 n) as [H|H]; [assert (A := pad_ge n); lia|]. unfold calc_padding. destruct (N.leb_spec n 32); lia. Qed.
Lemma pad_mono n m : n <= m -> calc_padding n <= calc_padding m.
Proof.
  intro H. destruct (N.ltb_spec 32 n) as [L|L].
  - rewrite calc_padding_eq by exact L. rewrite (calc_padding_eq m) by lia.
    assert (C : chunk_exp n <= chunk_exp m) by (unfold chunk_exp; assert (A := N.log2_le_mono (n - 1) (m - 1)); lia).
    assert (P := pow_pos (chunk_exp n)). destruct (ceil_ge m (2 ^ chunk_exp m)) as [G _]; [apply pow_pos|lia|].
    replace (2 ^ chunk_exp m) with (2 ^ chunk_exp n * 2 ^ (chunk_exp m - chunk_exp n)) in * by (rewrite <- N.pow_add_r; f_equal; lia).
    rewrite <- N.mul_assoc in *. apply ceil_least; lia.
  - unfold calc_padding at 1. destruct (N.leb_spec n 32); [apply pad_ge32|lia].
Qed.
Lemma pad_below_twice n : 32 < n -> calc_padding n < 2 * n.
Proof.
  intro H. rewrite calc_padding_eq by exact H. destruct (ceil_ge n (2 ^ chunk_exp n)) as [_ G]; [apply pow_pos|lia|].
  enough (2 ^ chunk_exp n <= n) by lia. unfold chunk_exp.
  assert (L : 5 <= N.log2 (n - 1)) by (change 5 with (N.log2 32); apply N.log2_le_mono; lia).
  destruct (N.log2_spec (n - 1)) as [S _]; [lia|].
  destruct (N.max_spec 5 (N.log2 (n - 1) - 2)) as [[A ->]|[A ->]]; [|change (2 ^ 5) with 32; lia].
  apply N.le_trans with (2 ^ N.log2 (n - 1)); [apply N.pow_le_mono_r; lia|lia].
Qed.
Lemma pad_le_64k n : n <= 65535 -> calc_padding n <= 65536.
Proof.
  intro H. apply N.le_trans with (calc_padding 65535); [apply pad_mono, H|]. vm_compute. discriminate.
Qed.

(** ** NIP-44 payloads *)
Lemma len_app a b : len (a ++ b) = len a + len b.
Proof. unfold len. rewrite app_length. lia. Qed.
Lemma len_cons c s : len (c :: s) = 1 + len s.
Proof. unfold len. cbn [length]. lia. Qed.

Lemma pad_length m : len (pad m) = 2 + calc_padding (len m).
Proof.
  unfold pad. rewrite !len_app. assert (G := pad_ge (len m)). unfold len in *. rewrite repeat_length. cbn [be16 length]. lia.
Qed.
Lemma get_be16_pad m r : len m <= 65535 -> get_be16 (be16 (len m) ++ r) = len m.
Proof.
  intro H. cbn [be16 app get_be16]. rewrite !val_byte_of by (apply N.mod_lt; lia).
  rewrite (N.mod_small (len m / 256)) by (apply N.div_lt_upper_bound; lia). assert (E := N.div_mod (len m) 256). lia.
Qed.

Lemma ok_inj {A} (a b : A) : Ok a = Ok b -> a = b.
Proof. intro E. injection E as E. exact E. Qed.
  Lemma take_app (a b : str) n : length a = n -> firstn n (a ++ b) = a.
  Proof. intros <-. rewrite firstn_app, Nat.sub_diag, firstn_all, firstn_O, app_nil_r. reflexivity. Qed.
  Lemma drop_app (a b : str) n : length a = n -> skipn n (a ++ b) = b.
  Proof. intros <-. rewrite skipn_app, Nat.sub_diag, skipn_all. reflexivity. Qed.
  Lemma drop_drop (s : str) b : forall a, skipn a (skipn b s) = skipn (b + a) s.
  Proof.
    revert s. induction b as [|b IH]; intros s a; [reflexivity|]. destruct s as [|c s]; [destruct a; reflexivity|]. apply IH.
  Qed.
  Lemma parts (nonce ct mac : str) : length nonce = 32%nat -> length mac = 32%nat ->
    let r := nonce ++ ct ++ mac in
    firstn 32 r = nonce /\ firstn (length r - 64) (skipn 32 r) = ct /\ skipn (length r - 32) r = mac.
  Proof.
    intros Hn Hm r. unfold r. rewrite !app_length. split; [|split].
    - apply take_app, Hn.
    - rewrite (drop_app nonce) by exact Hn. apply take_app. lia.
    - rewrite app_assoc. apply drop_app. rewrite app_length. lia.
  Qed.
  Lemma first_of_encode c r : len (c :: r) >= 1 -> val c = 2 -> match b64_encode (c :: r) with x :: _ => ceqb x "#"%char = false | [] => True end.
  Proof.
    intros _ Hc. assert (T := b64_encode_text (c :: r)). destruct (b64_encode (c :: r)) as [|x t]; [exact I|]. cbn [forallb] in T.
    apply andb_true_iff in T as [T _]. destruct (ceqb x "#") eqn:E; [|reflexivity]. apply Ascii.eqb_eq in E. subst x. discriminate.
  Qed.

Section Nip44.
  Variable message_keys : str -> str -> str * str * str.
  Variable chacha : str -> str -> str -> str.
  Variable hmac : str -> str -> str.
  Lemma nip44_sound p ck m : nip44_decrypt message_keys chacha hmac p ck = Ok m ->
    exists nonce ct mac k n h tail, b64_decode p = Some (byte_of 2 :: nonce ++ ct ++ mac) /\ length nonce = 32%nat /\ length mac = 32%nat /\
      message_keys ck nonce = (k, n, h) /\ mac = hmac h (nonce ++ ct) /\ 1 <= len m <= 65535 /\
      chacha k n ct = be16 (len m) ++ m ++ tail /\ len m + len tail = calc_padding (len m).
  Proof.
    unfold nip44_decrypt. destruct (_ || _); [discriminate|]. destruct (match p with [] => false | c :: _ => ceqb c "#" end); [discriminate|].
    destruct (b64_decode p) as [[|v r]|]; [discriminate| |discriminate].
    destruct (N.eqb_spec (val v) 2) as [V|V]; [|discriminate]. cbn [negb].
    destruct (N.ltb_spec (len (v :: r)) 99) as [A|A]; [discriminate|]. destruct (N.ltb_spec 65603 (len (v :: r))) as [A2|A2]; [discriminate|]. cbn [orb].
    rewrite len_cons in *. set (nonce := firstn 32 r). set (ct := firstn (length r - 64) (skipn 32 r)). set (mac := skipn (length r - 32) r).
    destruct (message_keys ck nonce) as [[k n] h] eqn:K. destruct (seqb_spec mac (hmac h (nonce ++ ct))) as [M|M]; [|discriminate]. cbn [negb].
    set (padded := chacha k n ct). set (l := get_be16 padded).
    destruct (N.ltb_spec l 1) as [L1|L1]; [discriminate|]. destruct (N.ltb_spec 65535 l) as [L2|L2]; [discriminate|]. cbn [orb].
    destruct (N.eqb_spec (len padded) (2 + calc_padding l)) as [L3|L3]; [|discriminate]. cbn [negb].
    destruct (Nat.ltb_spec (length (skipn 2 padded)) (N.to_nat l)) as [L4|L4]; [discriminate|]. intro E.
    assert (Em : firstn (N.to_nat l) (skipn 2 padded) = m) by exact (ok_inj _ _ E). clear E. rewrite <- Em.
    assert (Hm : len (firstn (N.to_nat l) (skipn 2 padded)) = l) by (unfold len; rewrite firstn_length_le by exact L4; lia).
    exists nonce, ct, mac, k, n, h, (skipn (N.to_nat l) (skipn 2 padded)). rewrite Hm.
    assert (R1 : r = nonce ++ ct ++ mac).
    { unfold nonce, ct, mac. rewrite <- (firstn_skipn 32 r) at 1. f_equal. rewrite <- (firstn_skipn (length r - 64) (skipn 32 r)) at 1. f_equal.
      rewrite drop_drop. f_equal. unfold len in A. lia. }
    split; [rewrite <- R1; f_equal; f_equal; apply val_inj; rewrite V; reflexivity|].
    assert (Lr : (98 <= length r)%nat) by (unfold len in A; lia).
    split; [unfold nonce; apply firstn_length_le; lia|]. split; [unfold mac; rewrite skipn_length; lia|]. split; [exact K|]. split; [exact M|]. split; [lia|].
    rewrite (app_assoc (be16 l)) , <- app_assoc.
    assert (Hp : exists a b q, padded = a :: b :: q).
    { destruct padded as [|a [|b q]]; unfold len in L3; cbn [length] in L3; [lia|lia|]. eauto. }
    destruct Hp as (a & b & q & Hp). split.
    - rewrite firstn_skipn. rewrite Hp. cbn [skipn]. unfold l. rewrite Hp. cbn [get_be16]. unfold be16.
      assert (VA := val_lt a). assert (VB := val_lt b).
      replace ((val a * 256 + val b) / 256) with (val a) by (apply (N.div_unique _ 256 _ (val b)); lia).
      replace ((val a * 256 + val b) mod 256) with (val b) by (apply (N.mod_unique _ 256 (val a)); lia).
      rewrite N.mod_small by lia. rewrite !byte_of_val. exact Hp.
    - rewrite Hp in L3 |- *. cbn [skipn]. rewrite Hp in L4. cbn [skipn] in L4. rewrite !len_cons in L3. unfold len in *. rewrite skipn_length. lia.
  Qed.
  Lemma nip44_panic p ck : nip44_decrypt message_keys chacha hmac p ck = Panic -> b64_decode p = Some [].
  Proof.
    unfold nip44_decrypt. destruct (_ || _); [discriminate|]. destruct (match p with [] => false | c :: _ => ceqb c "#" end); [discriminate|].
    destruct (b64_decode p) as [[|v r]|]; [reflexivity| |discriminate].
    destruct (negb (val v =? 2)); [discriminate|]. destruct (_ || _); [discriminate|].
    destruct (message_keys ck (firstn 32 r)) as [[k n] h]. destruct (negb (seqb _ _)); [discriminate|].
    set (padded := chacha k n _). destruct (N.eqb_spec (len padded) (2 + calc_padding (get_be16 padded))) as [E|E]; [|rewrite orb_true_r; discriminate].
    destruct (_ || _); [discriminate|]. destruct (Nat.ltb_spec (length (skipn 2 padded)) (N.to_nat (get_be16 padded))) as [L|L]; [|discriminate].
    intros _. exfalso. assert (G := pad_ge (get_be16 padded)). unfold len in E. rewrite skipn_length in L. lia.
  Qed.
  Hypothesis chacha_inv : forall k n m, chacha k n (chacha k n m) = m.
  Lemma nip44_again p ck m nonce ct mac k n h tail : b64_decode p = Some (byte_of 2 :: nonce ++ ct ++ mac) -> message_keys ck nonce = (k, n, h) -> mac = hmac h (nonce ++ ct) ->
    1 <= len m <= 65535 -> chacha k n ct = be16 (len m) ++ m ++ tail -> len m + len tail = calc_padding (len m) ->
    tail = repeat zero (length tail) -> nip44_encrypt message_keys chacha hmac m ck nonce = Ok (b64_encode (byte_of 2 :: nonce ++ ct ++ mac)).
  Proof.
    intros D K M L C T Z. unfold nip44_encrypt. rewrite K. destruct (N.ltb_spec (len m) 1); [lia|]. destruct (N.ltb_spec 65535 (len m)); [lia|]. cbn [orb].
    assert (P : pad m = chacha k n ct). { rewrite C. unfold pad. f_equal. f_equal. rewrite Z. f_equal. unfold len in T |- *. lia. }
    rewrite P, chacha_inv, <- M. reflexivity.
  Qed.
  Hypothesis chacha_len : forall k n m, length (chacha k n m) = length m.
  Hypothesis hmac_len : forall k m, length (hmac k m) = 32%nat.
  Lemma nip44_round plain ck nonce : length nonce = 32%nat -> 1 <= len plain <= 65535 ->
    exists p, nip44_encrypt message_keys chacha hmac plain ck nonce = Ok p /\ nip44_decrypt message_keys chacha hmac p ck = Ok plain.
  Proof.
    intros Hn Hl. unfold nip44_encrypt. destruct (message_keys ck nonce) as [[k n] h] eqn:K.
    destruct (N.ltb_spec (len plain) 1); [lia|]. destruct (N.ltb_spec 65535 (len plain)); [lia|]. cbn [orb].
    eexists. split; [reflexivity|]. set (ct := chacha k n (pad plain)). set (mac := hmac h (nonce ++ ct)). set (r := nonce ++ ct ++ mac).
    assert (Lct : len ct = 2 + calc_padding (len plain)) by (unfold ct, len at 1; rewrite chacha_len; apply pad_length).
    assert (Lr : len r = 66 + calc_padding (len plain)).
    { unfold r. rewrite !len_app, Lct. unfold len, mac. rewrite hmac_len, Hn. lia. }
    assert (G1 := pad_ge32 (len plain)). assert (G2 := pad_le_64k (len plain) ltac:(lia)).
    unfold nip44_decrypt. rewrite b64_encode_length, len_cons, Lr.
    set (q := (1 + (66 + calc_padding (len plain)) + 2) / 3).
    assert (Q1 : 33 <= q) by (unfold q; apply N.div_le_lower_bound; lia).
    assert (Q2 : q < 21869) by (unfold q; apply N.div_lt_upper_bound; lia).
    destruct (N.ltb_spec (4 * q) 132); [lia|]. destruct (N.ltb_spec 87472 (4 * q)); [lia|]. cbn [orb].
    assert (F := first_of_encode (byte_of 2) r). destruct (b64_encode (byte_of 2 :: r)) as [|x t] eqn:Eb.
    { exfalso. assert (B := b64_encode_length (byte_of 2 :: r)). rewrite Eb, len_cons, Lr in B. fold q in B. change (len []) with 0 in B. lia. }
    rewrite F; [|rewrite len_cons; lia|reflexivity]. rewrite <- Eb, b64_decode_encode.
    change (val (byte_of 2) =? 2) with true. cbn [negb]. rewrite len_cons, Lr.
    destruct (N.ltb_spec (1 + (66 + calc_padding (len plain))) 99); [lia|]. destruct (N.ltb_spec 65603 (1 + (66 + calc_padding (len plain)))); [lia|]. cbn [orb].
    destruct (parts nonce ct mac Hn (hmac_len _ _)) as (P1 & P2 & P3). fold r in P1, P2, P3. rewrite P1, P2, P3, K.
    unfold mac at 1. rewrite seqb_refl. cbn [negb]. assert (Dc : chacha k n ct = pad plain) by apply chacha_inv. rewrite !Dc.
    assert (Gp : get_be16 (pad plain) = len plain) by (apply get_be16_pad; lia). rewrite Gp, pad_length.
    destruct (N.ltb_spec (len plain) 1); [lia|]. destruct (N.ltb_spec 65535 (len plain)); [lia|]. rewrite N.eqb_refl. cbn [orb negb].
    unfold pad. unfold be16. cbn [app skipn]. unfold len. rewrite !Nat2N.id.
    destruct (Nat.ltb_spec (length (plain ++ repeat zero (N.to_nat (calc_padding (N.of_nat (length plain))) - length plain))) (length plain)) as [Q|Q]; [rewrite app_length in Q; lia|].
    rewrite firstn_app, Nat.sub_diag, firstn_all. cbn [firstn]. rewrite app_nil_r. reflexivity.
  Qed.
End Nip44.

(** ** NIP-04 *)
Lemma xor_byte (a b : ascii) : byte_of (N.lxor (val (byte_of (N.lxor (val a) (val b)))) (val b)) = a.
Proof.
  rewrite val_byte_of.
  - rewrite N.lxor_assoc, N.lxor_nilpotent, N.lxor_0_r. apply byte_of_val.
  - destruct (N.eq_dec (N.lxor (val a) (val b)) 0) as [->|NZ]; [reflexivity|].
    change 256 with (2 ^ 8). apply N.log2_lt_pow2; [lia|]. eapply N.le_lt_trans; [apply N.log2_lxor|].
    assert (A := val_lt a). assert (C := val_lt b). apply N.max_lub_lt; [destruct (N.eq_dec (val a) 0) as [->|]|destruct (N.eq_dec (val b) 0) as [->|]];
      try reflexivity; apply N.log2_lt_pow2; cbn; lia.
Qed.
Lemma xor_str_back a : forall b, (length a <= length b)%nat -> xor_str (xor_str a b) b = a.
Proof.
  induction a as [|x a IH]; intros [|y b] H; cbn [xor_str length] in *; try reflexivity; [lia|]. rewrite xor_byte, IH by lia. reflexivity.
Qed.
Lemma xor_str_length a : forall b, (length a <= length b)%nat -> length (xor_str a b) = length a.
Proof. induction a as [|x a IH]; intros [|y b] H; cbn [xor_str length] in *; try reflexivity; [lia|]. rewrite IH by lia. reflexivity. Qed.

Lemma cut_at sep s r : sep <> [] -> (forall c, In c s -> ceqb c (hd zero sep) = false) -> cut_str sep (s ++ sep ++ r) = Some (s, r).
Proof.
  intros Hs. induction s as [|c s IH]; intro H; cbn [app].
  - assert (P : has_prefix (sep ++ r) sep = true). { apply has_prefix_spec. exists r. reflexivity. }
    assert (D : skipn (length sep) (sep ++ r) = r) by (apply drop_app; reflexivity).
    destruct sep as [|x sep]; [congruence|]. cbn [app] in P, D |- *. cbn [cut_str]. rewrite P, D. reflexivity.
  - cbn [cut_str]. assert (P : has_prefix (c :: s ++ sep ++ r) sep = false).
    { destruct sep as [|x sep]; [congruence|]. cbn [has_prefix]. specialize (H c (or_introl eq_refl)). cbn [hd] in H. unfold ceqb in H. rewrite Ascii.eqb_sym in H. rewrite H. reflexivity. }
    rewrite P, IH; [reflexivity|]. intros d Hd. apply H. right. exact Hd.
Qed.
Lemma cut_none sep s : sep <> [] -> (forall c, In c s -> ceqb c (hd zero sep) = false) -> cut_str sep s = None.
Proof.
  intros Hs. induction s as [|c s IH]; intro H; cbn [cut_str].
  - destruct sep; [congruence|reflexivity].
  - assert (P : has_prefix (c :: s) sep = false).
    { destruct sep as [|x sep]; [congruence|]. cbn [has_prefix]. specialize (H c (or_introl eq_refl)). cbn [hd] in H. unfold ceqb in H. rewrite Ascii.eqb_sym in H. rewrite H. reflexivity. }
    rewrite P, IH; [reflexivity|]. intros d Hd. apply H. right. exact Hd.
Qed.
Lemma b64_no_mark s c : In c (b64_encode s) -> ceqb c "?"%char = false.
Proof.
  intro H. assert (T := b64_encode_text s). rewrite forallb_forall in T. specialize (T c H).
  destruct (ceqb c "?") eqn:E; [|reflexivity]. apply Ascii.eqb_eq in E. subst c. discriminate.
Qed.

Section Nip04.
  Variable aes_enc aes_dec : str -> str -> str.
  Lemma nip04_panic content key : nip04_decrypt aes_dec content key = Panic ->
    exists p0 rest ct iv, cut_str iv_sep content = Some (p0, rest) /\ b64_decode p0 = Some ct /\
      b64_decode (match cut_str iv_sep rest with Some (a, _) => a | None => rest end) = Some iv /\ (length iv <> 16%nat \/ (length ct mod 16)%nat <> 0%nat).
  Proof.
    unfold nip04_decrypt. destruct (cut_str iv_sep content) as [[p0 rest]|]; [|discriminate].
    destruct (b64_decode p0) as [ct|] eqn:E0; [|discriminate].
    match goal with |- context [match b64_decode ?x with Some _ => _ | None => _ end] => destruct (b64_decode x) as [iv|] eqn:E1; [|discriminate] end. destruct (negb (aes_key key)); [discriminate|].
    destruct (Nat.eqb_spec (length iv) 16) as [H|H]; cbn [negb].
    - destruct (Nat.eqb_spec (length ct mod 16) 0) as [H2|H2]; cbn [negb].
      + destruct (rev _); [discriminate|]. destruct (Nat.ltb _ _); discriminate.
      + intros _. exists p0, rest, ct, iv. auto.
    - intros _. exists p0, rest, ct, iv. auto.
  Qed.
  Hypothesis aes_len : forall k b, length b = 16%nat -> length (aes_enc k b) = 16%nat.

  Lemma cbc_enc_length key n : forall iv s, length iv = 16%nat -> length s = (16 * n)%nat -> length (cbc_enc aes_enc key n iv s) = (16 * n)%nat.
  Proof.
    induction n as [|n IH]; intros iv s Hi Hs; cbn [cbc_enc]; [reflexivity|]. rewrite app_length.
    assert (F : length (firstn 16 s) = 16%nat) by (apply firstn_length_le; lia).
    assert (E : length (aes_enc key (xor_str (firstn 16 s) iv)) = 16%nat) by (apply aes_len; rewrite xor_str_length; lia).
    rewrite E, IH; [lia|exact E|]. rewrite skipn_length. lia.
  Qed.
  Hypothesis aes_inv : forall k b, length b = 16%nat -> aes_dec k (aes_enc k b) = b.
  Lemma cbc_back key n : forall iv s, length iv = 16%nat -> length s = (16 * n)%nat -> cbc_dec aes_dec key n iv (cbc_enc aes_enc key n iv s) = s.
  Proof.
    induction n as [|n IH]; intros iv s Hi Hs; cbn [cbc_enc].
    - destruct s; [reflexivity|cbn [length] in Hs; lia].
    - assert (F : length (firstn 16 s) = 16%nat) by (apply firstn_length_le; lia).
      assert (X : length (xor_str (firstn 16 s) iv) = 16%nat) by (rewrite xor_str_length; lia).
      assert (E : length (aes_enc key (xor_str (firstn 16 s) iv)) = 16%nat) by (apply aes_len, X).
      cbn [cbc_dec]. rewrite (take_app (aes_enc _ _)) by exact E. rewrite (drop_app (aes_enc _ _)) by exact E.
      rewrite aes_inv by exact X. rewrite xor_str_back by lia. rewrite IH; [apply firstn_skipn|exact E|]. rewrite skipn_length. lia.
  Qed.

  Lemma nip04_round m key iv : aes_key key = true -> length iv = 16%nat ->
    exists c, nip04_encrypt aes_enc m key iv = Ok c /\ nip04_decrypt aes_dec c key = Ok m.
  Proof.
    intros Hk Hi. unfold nip04_encrypt. rewrite Hk. cbn [negb]. eexists. split; [reflexivity|].
    set (p := (16 - length m mod 16)%nat). assert (P : (1 <= p <= 16)%nat) by (unfold p; assert (L := Nat.mod_upper_bound (length m) 16); lia).
    set (padded := m ++ repeat (byte_of (N.of_nat p)) p).
    assert (D : exists n, length padded = (16 * n)%nat).
    { exists (length m / 16 + 1)%nat. unfold padded. rewrite app_length, repeat_length. unfold p. assert (L := Nat.div_mod (length m) 16). assert (L2 := Nat.mod_upper_bound (length m) 16). lia. }
    destruct D as [n D]. assert (Dn : (length padded / 16)%nat = n) by (rewrite D, Nat.mul_comm, Nat.div_mul; lia).
    unfold nip04_decrypt. rewrite cut_at; [|discriminate|intros c H; apply (b64_no_mark _ _ H)].
    rewrite cut_none; [|discriminate|intros c H; apply (b64_no_mark _ _ H)].
    rewrite !b64_decode_encode, Hk, Hi, Dn. rewrite cbc_enc_length by assumption. cbn [negb]. rewrite Nat.eqb_refl. cbn [negb].
    rewrite (Nat.mul_comm 16 n), Nat.mod_mul, Nat.div_mul by lia. cbn [Nat.eqb negb].
    rewrite cbc_back by assumption.
    assert (R : exists q, rev padded = byte_of (N.of_nat p) :: q).
    { unfold padded. destruct p as [|p']; [lia|]. replace (S p') with (p' + 1)%nat by lia. rewrite repeat_app. cbn [repeat]. rewrite app_assoc, rev_app_distr. cbn [rev app]. eauto. }
    destruct R as [q ->]. rewrite val_byte_of by lia. rewrite Nat2N.id.
    destruct (Nat.ltb_spec (length padded) p) as [L|L]; [unfold padded in L; rewrite app_length, repeat_length in L; lia|].
    f_equal. unfold padded. rewrite app_length, repeat_length. apply take_app. lia.
  Qed.

End Nip04.

(** ** NIP-49 *)
Section Nip49.
  Variable get_key : str -> str -> Z -> option str.
  Variable seal : str -> str -> str -> str -> str.
  Variable open : str -> str -> str -> str -> option str.
  Hypothesis open_seal : forall k n m ad, open k n (seal k n m ad) ad = Some m.
  Hypothesis seal_len : forall k n m ad, length (seal k n m ad) = (length m + 16)%nat.

  Lemma to_code_bits prefix data : plain_prefix prefix -> exists t b5, to_code prefix data = Ok t /\ decode t = Ok (prefix, b5) /\ exists nums, convert_bits b5 5 8 false = Ok nums /\ bytes_of nums = data.
  Proof.
    intros (N & P & L). destruct (regroup_back (nums_of data) (nums_lt data)) as (out & E1 & F & E2).
    destruct (encode_decode prefix out N P F) as (t & T1 & T2).
    exists t, out. split; [unfold to_code; rewrite E1; exact T1|]. split; [rewrite T2, L; reflexivity|]. exists (nums_of data). split; [exact E2|apply bytes_nums].
  Qed.
  Lemma nip49_bytes_round sk password logn ksb salt nonce key :
    length sk = 32%nat -> length salt = 16%nat -> length nonce = 24%nat -> logn < 256 -> get_key password salt (cost logn) = Some key ->
    exists c, nip49_encrypt_bytes get_key seal sk password logn ksb salt nonce = Ok c /\ nip49_decrypt_bytes get_key open c password = Ok sk.
  Proof.
    intros Hk Hs Hn Hl Hg. unfold nip49_encrypt_bytes. rewrite Hg.
    assert (Ff : fit 48 (seal key nonce sk [byte_of ksb]) = seal key nonce sk [byte_of ksb]).
    { unfold fit. rewrite seal_len, Hk. rewrite firstn_all2 by (rewrite seal_len; lia). cbn [Nat.add Nat.sub repeat]. apply app_nil_r. }
    rewrite Ff. set (d := salt ++ nonce ++ [byte_of ksb] ++ seal key nonce sk [byte_of ksb]).
    destruct (to_code_bits (B "ncryptsec") (byte_of 2 :: byte_of logn :: d)) as (t & b5 & E1 & E2 & nums & E3 & E4); [apply plain; reflexivity|].
    exists t. split; [exact E1|]. unfold nip49_decrypt_bytes. rewrite E2. cbn [obind]. rewrite seqb_refl. cbn [negb]. rewrite E3. cbn [obind]. rewrite E4.
    change (val (byte_of 2) =? 2) with true. cbn [negb].
    assert (Ld : length d = 89%nat) by (unfold d; rewrite !app_length, Hs, Hn, seal_len, Hk; reflexivity).
    destruct (Nat.ltb_spec (length d) 41) as [L|L]; [lia|].
    rewrite val_byte_of by exact Hl.
    assert (F1 : firstn 16 d = salt) by (apply take_app, Hs).
    assert (F2 : firstn 24 (skipn 16 d) = nonce) by (unfold d; rewrite (drop_app salt) by exact Hs; apply take_app, Hn).
    assert (F3 : skipn 40 d = [byte_of ksb] ++ seal key nonce sk [byte_of ksb]).
    { unfold d. rewrite (app_assoc salt). apply drop_app. rewrite app_length, Hs, Hn. reflexivity. }
    assert (F4 : skipn 41 d = seal key nonce sk [byte_of ksb]).
    { change 41%nat with (40 + 1)%nat. rewrite <- drop_drop, F3. reflexivity. }
    rewrite F1, F2, F3, F4, Hg. cbn [app firstn]. rewrite open_seal. reflexivity.
  Qed.
End Nip49.
