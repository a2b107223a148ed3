(** C108: keys. Generated keys are in range and nearly uniform; two parties agree on a key; signatures check; which keys are refused. *)
From Verif Require Import Base EventModel CryptoModel KeyModel KeyProofs.
Import ListNotations.
Local Open Scope Z_scope.

(** A secret key in range, written as it should be: 64 lowercase hex digits of a number from 1 to n - 1. *)
Definition key_text (k : Z) : str := hex_encode (be_bytes 32 k).
Definition good_key (n : Z) (sk : str) : Prop := exists k, 1 <= k < n /\ sk = key_text k.

(** ** Generating *)
Theorem C108_generated (n : Z) (b : str) : 1 < n <= 2 ^ 256 ->
  generate_private_key n (Some b) = key_text (be_val b mod (n - 1) + 1) /\ good_key n (generate_private_key n (Some b)) /\ length (generate_private_key n (Some b)) = 64%nat.
Proof.
  intro N. assert (E : generate_private_key n (Some b) = key_text (be_val b mod (n - 1) + 1)) by (unfold generate_private_key, int_bytes; rewrite pad_hex by apply be_bytes_length; reflexivity). rewrite E.
  split; [reflexivity|]. split; [|unfold key_text; rewrite hex_len, be_bytes_length; reflexivity]. exists (be_val b mod (n - 1) + 1). split; [|reflexivity].
  destruct (Z.eq_dec n 2) as [->|NE]; [cbn; rewrite Z.mod_1_r; lia|]. pose proof (Z.mod_pos_bound (be_val b) (n - 1) ltac:(lia)). lia.
Qed.
(** Every key has q or q + 1 of the 2^320 random strings, where q is the same for all: no key is chosen more often than another by more than one in q.
    The strings of a key are numbered from 0 by [str_no]. *)
Theorem C108_nearly_uniform (n k : Z) : 1 < n <= 2 ^ 256 -> 1 <= k < n ->
  exists m, (m = 2 ^ 320 / (n - 1) \/ m = 2 ^ 320 / (n - 1) + 1) /\
    (forall j, 0 <= j < m -> exists b, length b = 40%nat /\ be_val b = (k - 1) + j * (n - 1) /\ generate_private_key n (Some b) = key_text k) /\
    (forall b, length b = 40%nat -> generate_private_key n (Some b) = key_text k -> exists j, 0 <= j < m /\ be_val b = (k - 1) + j * (n - 1)) /\
    (forall a b, length a = 40%nat -> length b = 40%nat -> be_val a = be_val b -> a = b).
Proof.
  intros N K. set (d := n - 1). assert (D : 0 < d) by lia. set (T := 2 ^ 320). assert (TE : T = 256 ^ Z.of_nat 40) by reflexivity. assert (T0 : 0 < T) by reflexivity. clearbody T.
  pose proof (Z.div_mod T d ltac:(lia)) as DM. pose proof (Z.mod_pos_bound T d D) as MB. pose proof (Z.div_pos T d ltac:(lia) D) as Q0.
  exists (if k - 1 <? T mod d then T / d + 1 else T / d). split; [destruct (k - 1 <? T mod d); auto|]. split; [|split].
  - intros j J. assert (R : 0 <= (k - 1) + j * d < T) by (destruct (Z.ltb_spec (k - 1) (T mod d)); nia). exists (be_bytes 40 ((k - 1) + j * d)). rewrite be_bytes_length. rewrite be_val_bytes by (rewrite <- TE; exact R). split; [reflexivity|]. split; [reflexivity|].
    destruct (C108_generated n (be_bytes 40 ((k - 1) + j * d)) N) as (E & _ & _). etransitivity; [exact E|]. rewrite be_val_bytes by (rewrite <- TE; exact R). fold d. rewrite Z_mod_plus_full. rewrite Z.mod_small by lia. f_equal. lia.
  - intros b LB G. destruct (C108_generated n b N) as (E & _ & _). pose proof (eq_trans (eq_sym E) G) as G0. clear G. rename G0 into G. unfold key_text in G. apply (f_equal hex_decode) in G. rewrite !hex_decode_encode in G. assert (G' : be_bytes 32 (be_val b mod (n - 1) + 1) = be_bytes 32 k) by congruence. apply (f_equal be_val) in G'. fold d in G'.
    pose proof (Z.mod_pos_bound (be_val b) d D) as MB'. assert (P256 : (2:Z) ^ 256 = 256 ^ Z.of_nat 32) by reflexivity. rewrite !be_val_bytes in G' by (rewrite <- P256; lia). pose proof (be_val_range b) as RB. rewrite LB, <- TE in RB. pose proof (Z.div_mod (be_val b) d ltac:(lia)) as DB.
    exists (be_val b / d). split; [|nia]. split; [apply Z.div_pos; lia|]. destruct (Z.ltb_spec (k - 1) (T mod d)); nia.
  - intros a b LA LB. apply be_val_inj. congruence.
Qed.
Example C108_uniform_example : exists b, length b = 40%nat /\ generate_private_key secp_n (Some b) = key_text 7 /\ 2 ^ 320 / (secp_n - 1) = 2 ^ 64.
Proof. exists (repeat (byte_of 0) 39 ++ [byte_of 6]). vm_compute. auto. Qed.

Section WithCurve.
Variable c : curve.
Hypothesis L : lawful_curve c.
(** ** The public key of a key in range *)
Lemma key_scalar k : 1 <= k < cv_n c -> scalar c (be_bytes 32 k) = k.
Proof. intro K. pose proof (g_n c L) as N. unfold scalar. rewrite firstn_all2 by (rewrite be_bytes_length; lia). rewrite be_val_bytes by (change (256 ^ Z.of_nat 32) with (256 ^ 32); lia). apply Z.mod_small. lia. Qed.
Lemma gen_nonzero k : 1 <= k < cv_n c -> smul c k (cv_gen c) <> cv_zero c.
Proof. intros K H. apply (g_gen c L) in H. rewrite Z.mod_small in H by lia. lia. Qed.
Theorem C108_public k : 1 <= k < cv_n c -> curve_public_key c (key_text k) = Ok (hex_encode (cv_x c (smul c k (cv_gen c)))).
Proof. intro K. unfold curve_public_key, get_public_key, key_text. rewrite hex_decode_encode. unfold pub_of, compressed. rewrite key_scalar by exact K. reflexivity. Qed.
Theorem C108_public_parses k : 1 <= k < cv_n c -> exists pub, curve_public_key c (key_text k) = Ok pub /\
  parse_02 c pub = Ok (if cv_even c (smul c k (cv_gen c)) then smul c k (cv_gen c) else cv_neg c (smul c k (cv_gen c))).
Proof.
  intro K. exists (hex_encode (cv_x c (smul c k (cv_gen c)))). split; [apply C108_public; exact K|]. unfold parse_02. change (B "02") with (hex_encode [byte_of 2]). rewrite <- hex_app, hex_decode_encode. cbn [app]. rewrite (g_x_len c L). cbn [Nat.eqb]. rewrite (g_lift c L) by (apply gen_nonzero; exact K). reflexivity.
Qed.
(** Different keys have different public keys, except that k and n - k have the same one. *)
Lemma lift_x_same p q : p <> cv_zero c -> q <> cv_zero c -> cv_x c p = cv_x c q -> p = q \/ p = cv_neg c q.
Proof.
  intros HP HQ E. pose proof (g_lift c L p HP) as A. pose proof (g_lift c L q HQ) as D. rewrite E in A. rewrite A in D. destruct (cv_even c p), (cv_even c q).
  - left. congruence.
  - right. congruence.
  - right. assert (W : cv_neg c p = q) by congruence. rewrite <- W. symmetry. apply (neg_neg c L).
  - left. assert (W : cv_neg c p = cv_neg c q) by congruence. rewrite <- (neg_neg c L p), W. apply (neg_neg c L).
Qed.
Theorem C108_public_injective j k : 1 <= j < cv_n c -> 1 <= k < cv_n c -> curve_public_key c (key_text j) = curve_public_key c (key_text k) <-> j = k \/ j = cv_n c - k.
Proof.
  intros J K. rewrite !C108_public by assumption. pose proof (g_n c L) as N. split.
  - intro H. assert (E : hex_encode (cv_x c (smul c j (cv_gen c))) = hex_encode (cv_x c (smul c k (cv_gen c)))) by congruence. apply (f_equal hex_decode) in E. rewrite !hex_decode_encode in E. assert (E' : cv_x c (smul c j (cv_gen c)) = cv_x c (smul c k (cv_gen c))) by congruence.
    apply lift_x_same in E'; [|apply gen_nonzero; assumption|apply gen_nonzero; assumption].
    assert (M : forall a b, smul c a (cv_gen c) = smul c b (cv_gen c) -> (a - b) mod cv_n c = 0). { intros a b0 HH. apply (g_gen c L). unfold Z.sub. rewrite (smul_add c L), (smul_opp c L), HH. apply (g_neg c L). }
    destruct E' as [Q|Q]; [left; apply M in Q|right; rewrite <- (smul_opp c L) in Q; apply M in Q]; apply Z.mod_divide in Q; try lia; destruct Q as [q Q]; assert (QQ : q = 0 \/ q = 1 \/ q < 0 \/ 1 < q) by lia; nia.
  - intros [->| ->]; [reflexivity|]. do 2 f_equal. rewrite <- (g_x_neg c L (smul c k _)), <- (smul_opp c L). f_equal. apply (smul_eq c). rewrite <- (Z_mod_plus_full (- k) 1). f_equal. lia.
Qed.

(** ** Agreement *)
Lemma refused_in_range k : cv_n c = secp_n -> 1 <= k < cv_n c -> refused_key (key_text k) = false.
Proof.
  intros N K. unfold refused_key. assert (OT : order_text = hex_encode (be_bytes 32 secp_n)) by (vm_compute; reflexivity). assert (ZT : zero_text = hex_encode (be_bytes 32 0)) by (vm_compute; reflexivity). assert (S256 : secp_n < 256 ^ Z.of_nat 32) by reflexivity. assert (S0 : 0 < secp_n) by reflexivity.
  rewrite OT. unfold key_text. rewrite scmp_hex by (rewrite !be_bytes_length; reflexivity). rewrite scmp_val by (rewrite !be_bytes_length; reflexivity). rewrite !be_val_bytes by lia. rewrite (proj2 (Z.compare_lt_iff k secp_n)) by lia. cbn [orb].
  rewrite ZT. destruct (seqb (hex_encode (be_bytes 32 k)) (hex_encode (be_bytes 32 0))) eqn:E; [|reflexivity]. apply seqb_eq in E. apply (f_equal hex_decode) in E. rewrite !hex_decode_encode in E. assert (E' : be_bytes 32 k = be_bytes 32 0) by congruence. apply (f_equal be_val) in E'. rewrite !be_val_bytes in E' by lia. lia.
Qed.
Lemma shared_value a b : 1 <= a < cv_n c -> 1 <= b < cv_n c -> exists pb, curve_public_key c (key_text b) = Ok pb /\ shared_secret c pb (key_text a) = Ok (cv_x c (smul c (a * b) (cv_gen c))).
Proof.
  intros A D. destruct (C108_public_parses b D) as (pb & P1 & P2). exists pb. split; [exact P1|]. unfold shared_secret, key_text. rewrite hex_decode_encode, P2. cbn [obind]. rewrite key_scalar by exact A. f_equal. rewrite (smul_mul c L). destruct (cv_even c (smul c b (cv_gen c))); [reflexivity|]. rewrite smul_neg_point by exact L. apply (g_x_neg c L).
Qed.
Theorem C108_agree a b extract : cv_n c = secp_n -> good_key (cv_n c) a -> good_key (cv_n c) b ->
  exists pa pb s, curve_public_key c a = Ok pa /\ curve_public_key c b = Ok pb /\ shared_secret c pb a = Ok s /\ shared_secret c pa b = Ok s /\ length s = 32%nat /\
    conversation_key c extract pb a = Ok (extract s) /\ conversation_key c extract pa b = Ok (extract s).
Proof.
  intros N (j & J & ->) (k & K & ->). destruct (shared_value j k J K) as (pb & PB & SB). destruct (shared_value k j K J) as (pa & PA & SA). rewrite Z.mul_comm in SA. exists pa, pb, (cv_x c (smul c (j * k) (cv_gen c))). unfold conversation_key. rewrite !refused_in_range by assumption. rewrite SA, SB. cbn [obind]. repeat split; try assumption. apply (g_x_len c L).
Qed.

(** ** Signatures *)
Section Sig.
Variable tag : str -> str.
Variable nonce : str -> str -> nat -> Z.
Variable tries : nat.
Lemma first_some_spec {A} (f : nat -> option A) tries0 : forall i x, first_some f i tries0 = Some x -> exists j, (i <= j < i + tries0)%nat /\ f j = Some x.
Proof. induction tries0 as [|t IH]; intros i x H; [discriminate|]. cbn [first_some] in H. destruct (f i) as [y|] eqn:F; [exists i; split; [lia|congruence]|]. destruct (IH _ _ H) as (j & J & E). exists j. split; [lia|exact E]. Qed.
Lemma first_some_finds {A} (f : nat -> option A) tries0 : forall i j x, (i <= j < i + tries0)%nat -> f j = Some x -> exists y, first_some f i tries0 = Some y.
Proof.
  induction tries0 as [|t IH]; intros i j x R F; [lia|]. cbn [first_some]. destruct (f i) as [y|] eqn:E; [exists y; reflexivity|]. apply (IH (S i) j x); [|exact F]. destruct (Nat.eq_dec i j) as [->|NE]; [congruence|lia].
Qed.
(** What is signed with a key checks with its public key. *)
Theorem C108_signature_checks s h sg : (forall i, nonce s h i mod cv_n c <> 0) -> schnorr_sign c tag nonce tries s h = Some sg ->
  length sg = 64%nat /\ exists pk sig, schnorr_parse_pk c (skipn 1 (pub_of c s)) = Some pk /\ schnorr_parse_sig c sg = Some sig /\ schnorr_verify c tag sig h pk = true.
Proof.
  intros NZ H. pose proof (g_n c L) as N. unfold schnorr_sign in H. destruct (Nat.eqb_spec (length h) 32) as [LH|LH]; cbn [negb orb] in H; [|discriminate]. destruct (Z.eqb_spec (scalar c s) 0) as [Z0|Z0]; [discriminate|]. set (d := scalar c s) in *.
  destruct (first_some _ 0 tries) as [[r z]|] eqn:F; [|discriminate]. assert (SG : sg = r ++ be_bytes 32 z) by congruence. clear H. apply first_some_spec in F. destruct F as (i & _ & F). specialize (NZ i). set (k := nonce s h i) in *. clearbody k.
  assert (D : 1 <= d < cv_n c) by (unfold d, scalar in *; pose proof (Z.mod_pos_bound (be_val (firstn 32 s)) (cv_n c) ltac:(lia)); lia).
  unfold sign_once in F. set (p := smul c d (cv_gen c)) in *. set (rr := smul c k (cv_gen c)) in *. set (d' := if cv_even c p then d else - d) in *. set (k' := if cv_even c rr then k else - k) in *.
  destruct (challenge c tag (cv_x c rr) (cv_x c p) h) as [e|] eqn:CH; [|discriminate]. assert (RE : r = cv_x c rr) by congruence. assert (ZE : z = (k' + e * d') mod cv_n c) by congruence. clear F.
  assert (PN : p <> cv_zero c) by (apply gen_nonzero; exact D). assert (RN : rr <> cv_zero c) by (intro Q; apply (g_gen c L) in Q; contradiction).
  assert (ZR : 0 <= z < cv_n c) by (rewrite ZE; apply Z.mod_pos_bound; lia). assert (LR : length r = 32%nat) by (rewrite RE; apply (g_x_len c L)).
  assert (LS : length sg = 64%nat) by (rewrite SG, app_length, LR, be_bytes_length; reflexivity). split; [exact LS|].
  set (pk := if cv_even c p then p else cv_neg c p). assert (PK : pk = smul c d' (cv_gen c)) by (unfold pk, d'; destruct (cv_even c p); [reflexivity|rewrite (smul_opp c L); reflexivity]).
  assert (XPK : cv_x c pk = cv_x c p) by (unfold pk; destruct (cv_even c p); [reflexivity|apply (g_x_neg c L)]).
  exists pk, (r, z). split; [|split].
  - unfold schnorr_parse_pk, pub_of, compressed. fold d p. cbn [skipn]. rewrite (g_x_len c L). cbn [Nat.eqb]. apply (g_lift c L). exact PN.
  - unfold schnorr_parse_sig. rewrite LS. cbn [Nat.eqb andb]. rewrite SG. rewrite firstn_app, skipn_app, LR. rewrite Nat.sub_diag. rewrite firstn_all2, skipn_all2 by lia. cbn [firstn skipn app]. rewrite app_nil_r. rewrite be_val_bytes by (change (256 ^ Z.of_nat 32) with (256 ^ 32); lia). rewrite (proj2 (Z.ltb_lt z (cv_n c))) by lia. rewrite RE, (proj2 (Z.ltb_lt _ _) (g_x_field c L rr)). reflexivity.
  - unfold schnorr_verify. rewrite LH. cbn [Nat.eqb andb fst snd]. rewrite XPK, (g_lift c L p PN). fold pk. rewrite RE, CH. rewrite PK, <- (smul_mul c L), <- (smul_add c L).
    rewrite (smul_eq c (z + - e * d') k') by (rewrite ZE, Zplus_mod_idemp_l; f_equal; lia).
    assert (KP : smul c k' (cv_gen c) = if cv_even c rr then rr else cv_neg c rr) by (unfold k', rr; destruct (cv_even c (smul c k (cv_gen c))); [reflexivity|apply (smul_opp c L)]). rewrite KP.
    destruct (cv_even c rr) eqn:EV.
    + assert (Z1 : cv_is_zero c rr = false) by (destruct (cv_is_zero c rr) eqn:Q; [apply (g_is_zero c L) in Q; contradiction|reflexivity]). rewrite Z1, EV. cbn [negb andb]. apply seqb_eq. reflexivity.
    + assert (Z1 : cv_is_zero c (cv_neg c rr) = false). { destruct (cv_is_zero c (cv_neg c rr)) eqn:Q; [|reflexivity]. apply (g_is_zero c L) in Q. exfalso. apply RN. rewrite <- (neg_neg c L rr), Q. apply (neg_zero c L). }
      rewrite Z1, (g_even c L rr RN), EV, (g_x_neg c L). cbn [negb andb]. apply seqb_eq. reflexivity.
Qed.
(** Signing succeeds for a key in range when one of the nonces tried gives a hash below the order. *)
Theorem C108_signs k h : good_key (cv_n c) k -> length h = 32%nat ->
  (forall s d, exists i, (i < tries)%nat /\ be_val (tag (cv_x c (smul c (nonce s h i) (cv_gen c)) ++ cv_x c (smul c d (cv_gen c)) ++ h)) < cv_n c) ->
  forall s, hex_decode k = Some s -> exists sg, schnorr_sign c tag nonce tries s h = Some sg.
Proof.
  intros (d & D & ->) LH GN s HS. unfold key_text in HS. rewrite hex_decode_encode in HS. assert (E : s = be_bytes 32 d) by congruence. subst s. unfold schnorr_sign. rewrite LH, key_scalar by exact D. cbn [Nat.eqb negb orb]. destruct (Z.eqb_spec d 0) as [Z0|_]; [lia|].
  destruct (GN (be_bytes 32 d) d) as (i & I & LT). assert (ONE : exists x, sign_once c tag d (nonce (be_bytes 32 d) h i) h = Some x). { unfold sign_once, challenge. cbv zeta. rewrite (proj2 (Z.ltb_lt _ _) LT). eexists. reflexivity. }
  destruct ONE as [x X]. destruct (first_some_finds (fun i => sign_once c tag d (nonce (be_bytes 32 d) h i) h) tries 0 i x ltac:(lia) X) as [[r z] Y]. rewrite Y. eexists. reflexivity.
Qed.
(** The second half of a signature cannot be changed: for a key, a hash and a first half, at most one signature checks. *)
Theorem C108_not_malleable b1 b2 h pk sig1 sig2 : schnorr_parse_sig c b1 = Some sig1 -> schnorr_parse_sig c b2 = Some sig2 -> firstn 32 b1 = firstn 32 b2 ->
  schnorr_verify c tag sig1 h pk = true -> schnorr_verify c tag sig2 h pk = true -> b1 = b2.
Proof.
  intros P1 P2 R V1 V2. pose proof (g_n c L) as N. unfold schnorr_parse_sig in P1, P2. destruct (Nat.eqb_spec (length b1) 64) as [L1|L1]; cbn [andb] in P1; [|discriminate]. destruct (be_val (firstn 32 b1) <? secp_p); cbn [andb] in P1; [|discriminate]. destruct (Z.ltb_spec (be_val (skipn 32 b1)) (cv_n c)) as [S1|S1]; [|discriminate].
  destruct (Nat.eqb_spec (length b2) 64) as [L2|L2]; cbn [andb] in P2; [|discriminate]. destruct (be_val (firstn 32 b2) <? secp_p); cbn [andb] in P2; [|discriminate]. destruct (Z.ltb_spec (be_val (skipn 32 b2)) (cv_n c)) as [S2|S2]; [|discriminate].
  assert (E1 : sig1 = (firstn 32 b1, be_val (skipn 32 b1))) by congruence. assert (E2 : sig2 = (firstn 32 b2, be_val (skipn 32 b2))) by congruence. subst sig1 sig2. rewrite R in V1. unfold schnorr_verify in V1, V2. cbn [fst snd] in V1, V2.
  apply andb_prop in V1 as [_ V1]. apply andb_prop in V2 as [_ V2]. destruct (cv_lift c (cv_x c pk)) as [p|]; [|discriminate]. destruct (challenge c tag (firstn 32 b2) (cv_x c pk) h) as [e|]; [|discriminate]. apply andb_prop in V1 as [V1 X1]. apply andb_prop in V1 as [Z1 Y1]. apply andb_prop in V2 as [V2 X2]. apply andb_prop in V2 as [Z2 Y2]. apply seqb_eq in X1, X2.
  set (s1 := be_val (skipn 32 b1)) in *. set (s2 := be_val (skipn 32 b2)) in *. set (q1 := cv_add c (smul c s1 (cv_gen c)) (smul c (- e) p)) in *. set (q2 := cv_add c (smul c s2 (cv_gen c)) (smul c (- e) p)) in *.
  assert (N1 : q1 <> cv_zero c) by (intro Q; apply (g_is_zero c L) in Q; rewrite Q in Z1; discriminate). assert (N2 : q2 <> cv_zero c) by (intro Q; apply (g_is_zero c L) in Q; rewrite Q in Z2; discriminate).
  assert (QE : q1 = q2). { pose proof (g_lift c L q1 N1) as A1. pose proof (g_lift c L q2 N2) as A2. rewrite Y1 in A1. rewrite Y2 in A2. rewrite X1 in A1. rewrite X2 in A2. congruence. }
  unfold q1, q2 in QE. rewrite (g_comm c L (smul c s1 _)), (g_comm c L (smul c s2 _)) in QE. apply (cancel c L) in QE.
  assert (MM : (s1 - s2) mod cv_n c = 0). { apply (g_gen c L). unfold Z.sub. rewrite (smul_add c L), (smul_opp c L), QE. apply (g_neg c L). }
  pose proof (be_val_range (skipn 32 b1)) as R1. pose proof (be_val_range (skipn 32 b2)) as R2. fold s1 in R1. fold s2 in R2. apply Z.mod_divide in MM; [|lia]. destruct MM as [q Q]. assert (s1 = s2) by (assert (q = 0 \/ 1 <= q \/ q <= -1) by lia; nia).
  rewrite <- (firstn_skipn 32 b1), <- (firstn_skipn 32 b2), R. f_equal. apply be_val_inj; [rewrite !skipn_length; lia|assumption].
Qed.
End Sig.
End WithCurve.

(** ** The laws that the other files ask of the cryptography follow from the laws of the curve *)
Definition curve_prims (c : curve) (tag extract : str -> str) (nonce : str -> str -> nat -> Z) (tries : nat) (base : prims) : prims :=
  mkPrims (p_sha base) (cv_P c) (str * Z) (schnorr_parse_pk c) (schnorr_parse_sig c) (schnorr_verify c tag) (pub_of c)
    (schnorr_sign c tag nonce tries) (conversation_key c extract) (shared_secret c) (p_mkeys base) (p_chacha base) (p_hmac base) (p_aes_enc base) (p_aes_dec base).
Theorem C108_laws c tag extract nonce tries base bvalid : lawful_curve c -> cv_n c = secp_n -> lawful base bvalid ->
  (forall s h i, nonce s h i mod cv_n c <> 0) ->
  (forall s d h, exists i, (i < tries)%nat /\ be_val (tag (cv_x c (smul c (nonce s h i) (cv_gen c)) ++ cv_x c (smul c d (cv_gen c)) ++ h)) < cv_n c) ->
  lawful (curve_prims c tag extract nonce tries base) (good_key (cv_n c)).
Proof.
  intros L N LB NZ GN. constructor.
  - intro m. exact (l_sha base bvalid LB m).
  - intros s h sg H. exact (proj2 (C108_signature_checks c L tag nonce tries s h sg (NZ s h) H)).
  - intros sk s h V D LH. exact (C108_signs c L tag nonce tries sk h V LH (fun s0 d => GN s0 d h) s D).
  - intros a b A D. destruct (C108_agree c L a b extract N A D) as (pa & pb & s & PA & PB & SA & SB & LS & CA & CB). exists pa, pb, (extract s). auto.
  - intros a b A D. destruct (C108_agree c L a b extract N A D) as (pa & pb & s & PA & PB & SA & SB & LS & CA & CB). exists pa, pb, s. auto.
  - intros. apply (l_chacha base bvalid LB).
  - intros. apply (l_chacha_len base bvalid LB).
  - intros. apply (l_hmac base bvalid LB).
  - intros. apply (l_aes_len base bvalid LB). assumption.
  - intros. apply (l_aes base bvalid LB). assumption.
Qed.

(** ** Which keys GenerateConversationKey refuses *)
(** Of texts of 64 lowercase digits, exactly those outside the range. *)
Theorem C108_range_exact k : 0 <= k < 2 ^ 256 -> refused_key (key_text k) = true <-> ~ (1 <= k < secp_n).
Proof.
  intro K. assert (P256 : (2:Z) ^ 256 = 256 ^ Z.of_nat 32) by reflexivity. unfold refused_key. assert (OT : order_text = hex_encode (be_bytes 32 secp_n)) by (vm_compute; reflexivity). assert (ZT : zero_text = hex_encode (be_bytes 32 0)) by (vm_compute; reflexivity). assert (S256 : secp_n < 256 ^ Z.of_nat 32) by reflexivity. assert (S0 : 0 < secp_n) by reflexivity.
  rewrite OT. unfold key_text. rewrite scmp_hex by (rewrite !be_bytes_length; reflexivity). rewrite scmp_val by (rewrite !be_bytes_length; reflexivity). rewrite !be_val_bytes by lia. rewrite orb_true_iff, ZT.
  assert (ZK : seqb (hex_encode (be_bytes 32 k)) (hex_encode (be_bytes 32 0)) = true <-> k = 0). { rewrite seqb_eq. split; [|intros ->; reflexivity]. intro E. apply (f_equal hex_decode) in E. rewrite !hex_decode_encode in E. assert (E' : be_bytes 32 k = be_bytes 32 0) by congruence. apply (f_equal be_val) in E'. rewrite !be_val_bytes in E' by lia. exact E'. }
  rewrite ZK. clear ZK OT ZT. destruct (Z.compare_spec k secp_n) as [E|E|E]; (split; [intros [H|H]; first [discriminate H|lia]|intro H; first [left; reflexivity|right; lia]]).
Qed.
(** In another spelling, a key that is zero is not refused: then the shared secret is 32 zero bytes, the same whoever the other party is. *)
Theorem C108_zero_key_refuted c extract : lawful_curve c -> cv_n c = secp_n ->
  forall sk, In sk [B "00"; B ""; B "FFFFFFFFFFFFFFFFFFFFFFFFFFFFFFFEBAAEDCE6AF48A03BBFD25E8CD0364141"] ->
  forall pub p, parse_02 c pub = Ok p -> conversation_key c extract pub sk = Ok (extract (repeat (byte_of 0) 32)).
Proof.
  intros L N sk I pub p P. assert (R : refused_key sk = false /\ exists s, hex_decode sk = Some s /\ be_val (firstn 32 s) mod secp_n = 0).
  { cbn [In] in I. destruct I as [<-|[<-|[<-|[]]]]; (split; [vm_compute; reflexivity|eexists; split; [vm_compute; reflexivity|vm_compute; reflexivity]]). }
  destruct R as [R (s & D & Z0)]. unfold conversation_key, shared_secret. rewrite R, D, P. cbn [obind]. unfold scalar. rewrite N, Z0, (smul_0 c L), (g_x_zero c L). reflexivity.
Qed.
(** Keys that the signer accepts, and that are in range, are refused when not written with 64 digits: texts are compared, not numbers. *)
Theorem C108_short_key_refuted : exists sk s, hex_decode sk = Some s /\ 1 <= be_val (firstn 32 s) < secp_n /\ refused_key sk = true.
Proof. exists (repeat "f"%char 34). eexists. split; [vm_compute; reflexivity|]. split; [vm_compute; split; congruence|vm_compute; reflexivity]. Qed.
(** When the random reader fails, the key is the empty text; GetPublicKey gives it a public key of zeros and no error, and so for every key that is zero. *)
Theorem C108_no_random_refuted c n : lawful_curve c -> generate_private_key n None = [] /\ curve_public_key c (generate_private_key n None) = Ok (repeat "0"%char 64).
Proof.
  intro L. split; [reflexivity|]. unfold curve_public_key, get_public_key. cbn [generate_private_key hex_decode]. unfold pub_of, compressed, scalar. replace (be_val (firstn 32 []) mod cv_n c) with 0 by (symmetry; apply Z.mod_0_l; pose proof (g_n c L); lia). rewrite (smul_0 c L), (g_x_zero c L). cbn [skipn]. rewrite hex_zeros. reflexivity.
Qed.
(** A signature with it fails. *)
Theorem C108_no_zero_signature c tag nonce tries s h : scalar c s = 0 -> schnorr_sign c tag nonce tries s h = None.
Proof. intro H. unfold schnorr_sign. rewrite H. cbn. rewrite orb_true_r. reflexivity. Qed.
(** Only the first 32 bytes of a key count: any longer text with the same beginning is the same key. *)
Theorem C108_long_key_refuted c s t : length s = 32%nat -> curve_public_key c (hex_encode (s ++ t)) = curve_public_key c (hex_encode s).
Proof. intro H. unfold curve_public_key, get_public_key. rewrite !hex_decode_encode. unfold pub_of, scalar. rewrite firstn_app, H, Nat.sub_diag. cbn [firstn]. rewrite app_nil_r. reflexivity. Qed.

(** ** The laws can hold: a curve of the order of secp256k1 on which everything computes (and nothing is secret) *)
Definition demo_curve : curve := toy_curve secp_n.
Theorem C108_demo_lawful : lawful_curve demo_curve /\ cv_n demo_curve = secp_n.
Proof. split; [|reflexivity]. apply toy_curve_lawful; [split; vm_compute; congruence|vm_compute; congruence|vm_compute; reflexivity]. Qed.
Definition demo_tag (s : str) : str := repeat (byte_of 0) 31 ++ [byte_of (N.of_nat (length s) mod 256)].
Lemma demo_tag_small m : be_val (demo_tag m) < 256.
Proof. unfold demo_tag. rewrite be_val_snoc. replace (be_val (repeat (byte_of 0) 31)) with 0 by (vm_compute; reflexivity). match goal with |- _ + Z.of_N (val ?b) < _ => pose proof (val_lt b) end. lia. Qed.
Theorem C108_demo_laws base bvalid : lawful base bvalid -> lawful (curve_prims demo_curve demo_tag (fun s => s) (fun _ _ _ => 5) 1 base) (good_key secp_n).
Proof.
  intro LB. apply (C108_laws demo_curve demo_tag (fun s => s) (fun _ _ _ => 5) 1 base bvalid (proj1 C108_demo_lawful) eq_refl LB).
  - intros. vm_compute. discriminate.
  - intros s d h. exists 0%nat. split; [lia|]. apply Z.lt_trans with 256; [apply demo_tag_small|reflexivity].
Qed.
(** A curve of order 101, small enough to compute with. *)
Definition tiny_curve : curve := toy_curve 101.
Example C108_example :
  curve_public_key tiny_curve (key_text 3) = Ok (key_text 3) /\ curve_public_key tiny_curve (key_text 98) = Ok (key_text 3) /\
  shared_secret tiny_curve (key_text 40) (key_text 98) = Ok (be_bytes 32 19) /\ curve_public_key tiny_curve (key_text 61) = Ok (key_text 40) /\ shared_secret tiny_curve (key_text 3) (key_text 61) = Ok (be_bytes 32 19) /\
  match schnorr_sign tiny_curve demo_tag (fun _ _ _ => 5) 1 (be_bytes 32 98) (repeat "h"%char 32) with
  | Some sg => match schnorr_parse_sig tiny_curve sg, schnorr_parse_pk tiny_curve (be_bytes 32 3) with
               | Some sig, Some pk => schnorr_verify tiny_curve demo_tag sig (repeat "h"%char 32) pk = true /\ schnorr_verify tiny_curve demo_tag (fst sig, snd sig + 1) (repeat "h"%char 32) pk = false
               | _, _ => False
               end
  | None => False
  end.
Proof. vm_compute. repeat split. Qed.

Print Assumptions C108_generated.
Print Assumptions C108_nearly_uniform.
Print Assumptions C108_public.
Print Assumptions C108_public_parses.
Print Assumptions C108_public_injective.
Print Assumptions C108_agree.
Print Assumptions C108_signature_checks.
Print Assumptions C108_signs.
Print Assumptions C108_not_malleable.
Print Assumptions C108_laws.
Print Assumptions C108_range_exact.
Print Assumptions C108_zero_key_refuted.
Print Assumptions C108_short_key_refuted.
Print Assumptions C108_no_random_refuted.
Print Assumptions C108_no_zero_signature.
Print Assumptions C108_long_key_refuted.
Print Assumptions C108_demo_lawful.
Print Assumptions C108_demo_laws.
