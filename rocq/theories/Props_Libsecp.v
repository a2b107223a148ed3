(** C115: signatures in the two builds. The build with libsecp256k1 accepts what the other accepts, and more; a long key or signature ends the program. *)
From Verif Require Import Base EventModel PowProofs CryptoModel KeyModel KeyProofs Props_Key LibsecpModel.
Import ListNotations.
Local Open Scope Z_scope.

(** ** Reading hex into an array *)
Lemma hex_into_spec room : forall s, match hex_decode s with
  | Some b => hex_into room s = if (length b <=? room)%nat then Ok b else Panic
  | None => hex_into room s = Err \/ hex_into room s = Panic
  end.
Proof.
  induction room as [|n IH]; intro s.
  - destruct s as [|a [|b s]]; [reflexivity|left; reflexivity|]. cbn [hex_decode hex_into]. destruct (hex_val a), (hex_val b); try (left; reflexivity). destruct (hex_decode s); [reflexivity|right; reflexivity].
  - destruct s as [|a [|b s]]; [reflexivity|left; reflexivity|]. cbn [hex_decode hex_into]. destruct (hex_val a) as [x|], (hex_val b) as [y|]; try (left; reflexivity). specialize (IH s). destruct (hex_decode s) as [r|].
    + rewrite IH. cbn [length Nat.leb]. destruct (length r <=? n)%nat; reflexivity.
    + destruct IH as [-> | ->]; [left|right]; reflexivity.
Qed.
(** The text begins with more whole bytes than there is room for. *)
Definition overflows (room : nat) (s : str) : Prop := exists b, hex_decode (firstn (2 * S room) s) = Some b /\ length b = S room.
Lemma hex_into_panic room : forall s, hex_into room s = Panic <-> overflows room s.
Proof.
  induction room as [|n IH]; intro s.
  - destruct s as [|a [|b s]]; [split; [discriminate|intros (q & Q & W); cbn in Q; injection Q as <-; discriminate W]|split; [discriminate|intros (q & Q & W); discriminate Q]|]. unfold overflows. cbn [hex_into Nat.mul Nat.add firstn hex_decode]. destruct (hex_val a) as [x|], (hex_val b) as [y|]; (split; [first [discriminate|intros _; eexists; split; reflexivity]|first [reflexivity|intros (q & Q & W); discriminate Q]]).
  - destruct s as [|a [|b s]]; [split; [discriminate|intros (q & Q & W); cbn in Q; injection Q as <-; discriminate W]|split; [discriminate|intros (q & Q & W); discriminate Q]|]. specialize (IH s). unfold overflows in *. replace (2 * S (S n))%nat with (S (S (2 * S n)))%nat by lia. cbn [hex_into firstn hex_decode]. destruct (hex_val a) as [x|], (hex_val b) as [y|]; try (split; [discriminate|intros (q & Q & W); discriminate Q]).
    split.
    + intro H. destruct IH as [IH _]. destruct IH as (q & Q & W); [destruct (hex_into n s); try discriminate H; reflexivity|]. rewrite Q. eexists. split; [reflexivity|cbn [length]; lia].
    + intros (q & Q & W). destruct (hex_decode (firstn (2 * S n) s)) as [r|]; [|discriminate Q]. injection Q as <-. cbn [length] in W. rewrite (proj2 IH); [reflexivity|]. exists r. split; [reflexivity|lia].
Qed.
Definition zeros (n : nat) : str := repeat (byte_of 0) n.
Lemma hex_array_ok room s a : hex_array room s = Ok a <-> exists b, hex_decode s = Some b /\ (length b <= room)%nat /\ a = b ++ zeros (room - length b).
Proof.
  unfold hex_array. pose proof (hex_into_spec room s) as H. destruct (hex_decode s) as [b|].
  - rewrite H. destruct (Nat.leb_spec (length b) room) as [LE|GT]; cbn [obind]; split.
    + intro E. injection E as <-. exists b. auto.
    + intros (b' & E & _ & ->). injection E as <-. reflexivity.
    + discriminate.
    + intros (b' & E & LE & _). injection E as <-. lia.
  - split; [destruct H as [-> | ->]; discriminate|intros (b' & E & _); discriminate E].
Qed.
Lemma hex_array_panic room s : hex_array room s = Panic <-> overflows room s.
Proof. rewrite <- hex_into_panic. unfold hex_array. destruct (hex_into room s); cbn [obind]; split; intro Q; first [discriminate Q|reflexivity]. Qed.

Section Both.
Variable c : curve.
Hypothesis L : lawful_curve c.
Variable tag : str -> str.
Variable sha : str -> str.
Hypothesis sha_len : forall m, length (sha m) = 32%nat.
(** CheckSignature of the other build, signature.go. *)
Definition def_check (e : event) : outcome bool := check_signature sha (cv_P c) (str * Z) (schnorr_parse_pk c) (schnorr_parse_sig c) (schnorr_verify c tag) e.
Notation lib_check := (lib_check c tag sha).
(** The hash in a signature is below the order, as it is for secp256k1 except with a chance of about one in 2^127. *)
Definition small_hash : Prop := forall m, be_val (tag m) < cv_n c.

Lemma lift_fix x p : cv_lift c x = Some p -> cv_lift c (cv_x c p) = Some p /\ cv_x c p = x.
Proof. intro H. destruct (g_lift_some c L x p H) as (NZ & EV & X). rewrite (g_lift c L p NZ), EV. auto. Qed.
Lemma challenge_small r px h e : challenge c tag r px h = Some e -> lib_challenge c tag r px h = e.
Proof. unfold challenge, lib_challenge. pose proof (g_n c L) as N. destruct (Z.ltb_spec (be_val (tag (r ++ px ++ h))) (cv_n c)) as [LT|]; [|discriminate]. intro H. injection H as <-. apply Z.mod_small. pose proof (be_val_range (tag (r ++ px ++ h))). lia. Qed.
(** the two libraries on the same bytes *)
Lemma verify_same b h p x : cv_lift c x = Some p -> length h = 32%nat -> length b = 64%nat ->
  (forall sg, schnorr_parse_sig c b = Some sg -> schnorr_verify c tag sg h p = true -> lib_verify c tag b h p = true) /\
  (small_hash -> lib_verify c tag b h p = match schnorr_parse_sig c b with Some sg => schnorr_verify c tag sg h p | None => false end).
Proof.
  intros LX LH LB. destruct (lift_fix _ _ LX) as [F X]. unfold schnorr_parse_sig, lib_verify. cbv zeta. rewrite LB. cbn [Nat.eqb andb]. split.
  - intros sg PS V. destruct (be_val (firstn 32 b) <? secp_p); cbn [andb] in *; [|discriminate]. destruct (be_val (skipn 32 b) <? cv_n c); [|discriminate]. assert (SE : sg = (firstn 32 b, be_val (skipn 32 b))) by congruence. subst sg. unfold schnorr_verify in V. cbn [fst snd] in V. rewrite F in V. destruct (challenge c tag _ _ h) as [e|] eqn:CH; [|rewrite andb_false_r in V; discriminate]. rewrite (challenge_small _ _ _ _ CH). apply andb_prop in V as [_ V]. exact V.
  - intro SH. destruct (be_val (firstn 32 b) <? secp_p); cbn [andb]; [|reflexivity]. destruct (be_val (skipn 32 b) <? cv_n c); [|reflexivity]. unfold schnorr_verify. cbn [fst snd andb]. rewrite F, LH. cbn [Nat.eqb andb]. destruct (challenge c tag _ _ h) as [e|] eqn:CH.
    + rewrite (challenge_small _ _ _ _ CH). reflexivity.
    + unfold challenge in CH. cbv zeta in CH. rewrite (proj2 (Z.ltb_lt _ _) (SH _)) in CH. discriminate.
Qed.
Lemma full_array room s b : hex_decode s = Some b -> length b = room -> hex_array room s = Ok b.
Proof. intros H <-. apply hex_array_ok. exists b. split; [exact H|]. split; [lia|]. rewrite Nat.sub_diag. cbn. rewrite app_nil_r. reflexivity. Qed.

(** ** What both accept *)
(** Whatever the default build accepts, the other accepts. *)
Theorem C115_accepts e : def_check e = Ok true -> lib_check e = Ok true.
Proof.
  intro H. unfold def_check, check_signature in H. destruct (hex_decode (ev_pubkey e)) as [pk|] eqn:D1; [|discriminate]. destruct (schnorr_parse_pk c pk) as [p|] eqn:P1; [|discriminate]. destruct (hex_decode (ev_sig e)) as [sg|] eqn:D2; [|discriminate]. destruct (schnorr_parse_sig c sg) as [s|] eqn:P2; [|discriminate].
  assert (V : schnorr_verify c tag s (sha (serialize e)) p = true) by congruence. unfold schnorr_parse_pk in P1. destruct (Nat.eqb_spec (length pk) 32) as [L1|]; [|discriminate]. assert (L2 : length sg = 64%nat). { unfold schnorr_parse_sig in P2. destruct (Nat.eqb_spec (length sg) 64); [assumption|discriminate]. }
  unfold LibsecpModel.lib_check. rewrite (full_array _ _ _ D1 L1), (full_array _ _ _ D2 L2). cbn [obind]. rewrite P1. f_equal. exact (proj1 (verify_same _ _ _ _ P1 (sha_len _) L2) _ P2 V).
Qed.
(** On keys of 64 characters and signatures of 128, they accept the same, and the other build does not panic. Where the default build gives an answer the other gives the
    same; it differs only in saying false without an error for a signature that has a half out of range. *)
Theorem C115_same e : small_hash -> length (ev_pubkey e) = 64%nat -> length (ev_sig e) = 128%nat ->
  (lib_check e = Ok true <-> def_check e = Ok true) /\ (forall b, def_check e = Ok b -> lib_check e = Ok b) /\ (lib_check e = Err -> def_check e = Err) /\ lib_check e <> Panic.
Proof.
  intros SH LP LS. split; [split; [|apply C115_accepts]|].
  - intro H. unfold LibsecpModel.lib_check in H. destruct (hex_array 32 (ev_pubkey e)) as [pk| |] eqn:A1; cbn [obind] in H; try discriminate. destruct (hex_array 64 (ev_sig e)) as [sg| |] eqn:A2; cbn [obind] in H; try discriminate. destruct (cv_lift c pk) as [p|] eqn:LX; [|discriminate].
    apply hex_array_ok in A1 as (b1 & D1 & _ & E1). apply hex_array_ok in A2 as (b2 & D2 & _ & E2). pose proof (hex_decode_len _ _ D1) as N1. pose proof (hex_decode_len _ _ D2) as N2. assert (L1 : length b1 = 32%nat) by lia. assert (L2 : length b2 = 64%nat) by lia. rewrite L1 in E1. rewrite L2 in E2. cbn [Nat.sub zeros repeat] in E1, E2. rewrite app_nil_r in E1, E2. subst b1 b2.
    assert (V : lib_verify c tag sg (sha (serialize e)) p = true) by congruence. rewrite (proj2 (verify_same _ _ _ _ LX (sha_len _) L2) SH) in V. unfold def_check, check_signature. rewrite D1. unfold schnorr_parse_pk. rewrite L1. cbn [Nat.eqb]. rewrite LX, D2. destruct (schnorr_parse_sig c sg) as [s|]; [|discriminate]. congruence.
  - assert (D : forall room t, length t = (2 * room)%nat -> match hex_decode t with Some b => length b = room /\ hex_array room t = Ok b | None => hex_array room t = Err end).
    { intros room t LT. destruct (hex_decode t) as [b|] eqn:HD; [pose proof (hex_decode_len _ _ HD); split; [lia|apply full_array; [exact HD|lia]]|]. pose proof (hex_into_spec room t) as W. rewrite HD in W. destruct W as [W|W]; [unfold hex_array; rewrite W; reflexivity|]. exfalso. apply hex_into_panic in W. destruct W as (q & Q & LQ). pose proof (hex_decode_len _ _ Q) as N. rewrite firstn_length in N. lia. }
    pose proof (D 32%nat _ LP) as D1. pose proof (D 64%nat _ LS) as D2. unfold def_check, check_signature, LibsecpModel.lib_check. destruct (hex_decode (ev_pubkey e)) as [pk|] eqn:H1.
    + destruct D1 as [L1 A1]. rewrite A1. cbn [obind]. unfold schnorr_parse_pk. rewrite L1. cbn [Nat.eqb]. destruct (hex_decode (ev_sig e)) as [sg|].
      * destruct D2 as [L2 A2]. rewrite A2. cbn [obind]. destruct (cv_lift c pk) as [p|] eqn:LX; [|repeat split; congruence]. rewrite (proj2 (verify_same _ _ _ _ LX (sha_len _) L2) SH). destruct (schnorr_parse_sig c sg); repeat split; congruence.
      * rewrite D2. cbn [obind]. destruct (cv_lift c pk); repeat split; congruence.
    + rewrite D1. cbn [obind]. repeat split; congruence.
Qed.

(** ** What the build with libsecp256k1 accepts beyond that *)
(** Exactly: keys and signatures that are too short are filled with zero bytes at the end. *)
Theorem C115_accepts_exactly e : small_hash -> lib_check e = Ok true <->
  exists pk sg p s, hex_decode (ev_pubkey e) = Some pk /\ hex_decode (ev_sig e) = Some sg /\ (length pk <= 32)%nat /\ (length sg <= 64)%nat /\
    schnorr_parse_pk c (pk ++ zeros (32 - length pk)) = Some p /\ schnorr_parse_sig c (sg ++ zeros (64 - length sg)) = Some s /\ schnorr_verify c tag s (sha (serialize e)) p = true.
Proof.
  intro SH. assert (FL : forall n b, (length b <= n)%nat -> length (b ++ zeros (n - length b)) = n) by (intros; unfold zeros; rewrite app_length, repeat_length; lia). split.
  - intro H. unfold LibsecpModel.lib_check in H. destruct (hex_array 32 (ev_pubkey e)) as [a1| |] eqn:A1; cbn [obind] in H; try discriminate. destruct (hex_array 64 (ev_sig e)) as [a2| |] eqn:A2; cbn [obind] in H; try discriminate. destruct (cv_lift c a1) as [p|] eqn:LX; [|discriminate].
    apply hex_array_ok in A1 as (pk & D1 & L1 & ->). apply hex_array_ok in A2 as (sg & D2 & L2 & ->). assert (V : lib_verify c tag (sg ++ zeros (64 - length sg)) (sha (serialize e)) p = true) by congruence. rewrite (proj2 (verify_same _ _ _ _ LX (sha_len _) (FL _ _ L2)) SH) in V. destruct (schnorr_parse_sig c _) as [s|] eqn:PS; [|discriminate].
    exists pk, sg, p, s. unfold schnorr_parse_pk. rewrite (FL _ _ L1). cbn [Nat.eqb]. repeat split; assumption.
  - intros (pk & sg & p & s & D1 & D2 & L1 & L2 & PP & PS & V). unfold LibsecpModel.lib_check. rewrite (proj2 (hex_array_ok 32 _ _) (ex_intro _ pk (conj D1 (conj L1 eq_refl)))), (proj2 (hex_array_ok 64 _ _) (ex_intro _ sg (conj D2 (conj L2 eq_refl)))). cbn [obind].
    unfold schnorr_parse_pk in PP. rewrite (FL _ _ L1) in PP. cbn [Nat.eqb] in PP. rewrite PP. f_equal. exact (proj1 (verify_same _ _ _ _ PP (sha_len _) (FL _ _ L2)) _ PS V).
Qed.
Definition with_sig (sig : str) (e : event) : event := mkEvent (ev_id e) (ev_pubkey e) (ev_created_at e) (ev_kind e) (ev_tags e) (ev_content e) sig.
(** So a signature that ends in zero bytes has other texts that check, for the same event with the same id; the default build refuses them. *)
Theorem C115_second_text e a n : def_check e = Ok true -> (0 < n)%nat -> hex_decode (ev_sig e) = Some (a ++ zeros n) ->
  lib_check (with_sig (hex_encode a) e) = Ok true /\ def_check (with_sig (hex_encode a) e) = Err /\ hex_encode a <> ev_sig e.
Proof.
  intros H POS D. pose proof H as H0. unfold def_check, check_signature in H. destruct (hex_decode (ev_pubkey e)) as [pk|] eqn:D1; [|discriminate]. destruct (schnorr_parse_pk c pk) as [p|] eqn:P1; [|discriminate]. rewrite D in H. destruct (schnorr_parse_sig c (a ++ zeros n)) as [s|] eqn:P2; [|discriminate].
  assert (L2 : length (a ++ zeros n) = 64%nat). { unfold schnorr_parse_sig in P2. destruct (Nat.eqb_spec (length (a ++ zeros n)) 64); [assumption|discriminate]. }
  assert (LA : (length a + n)%nat = 64%nat) by (unfold zeros in L2; rewrite app_length, repeat_length in L2; exact L2). split; [|split].
  - pose proof (C115_accepts e H0) as A. unfold LibsecpModel.lib_check in *. cbn [with_sig ev_pubkey ev_sig]. replace (serialize (with_sig (hex_encode a) e)) with (serialize e) by reflexivity. rewrite (full_array _ _ _ D L2) in A. rewrite (proj2 (hex_array_ok 64 (hex_encode a) (a ++ zeros n))); [exact A|]. exists a. split; [apply hex_decode_encode|]. split; [lia|]. do 2 f_equal. lia.
  - unfold def_check, check_signature. cbn [with_sig ev_pubkey ev_sig]. rewrite D1, P1, hex_decode_encode. unfold schnorr_parse_sig. destruct (Nat.eqb_spec (length a) 64) as [Q|Q]; [lia|reflexivity].
  - intro Q. rewrite <- Q, hex_decode_encode in D. injection D as D. apply (f_equal (@length ascii)) in D. unfold zeros in D. rewrite app_length, repeat_length in D. lia.
Qed.
(** ** Panics *)
(** Exactly when the key, or else the signature, begins with more hex bytes than it should have. The default build never panics. *)
Theorem C115_panics_exactly e : lib_check e = Panic <->
  overflows 32 (ev_pubkey e) \/ ((exists b, hex_decode (ev_pubkey e) = Some b /\ (length b <= 32)%nat) /\ overflows 64 (ev_sig e)).
Proof.
  rewrite <- !hex_array_panic. assert (OKX : (exists b, hex_decode (ev_pubkey e) = Some b /\ (length b <= 32)%nat) <-> exists a, hex_array 32 (ev_pubkey e) = Ok a).
  { split; [intros (b & D & LE); eexists; apply hex_array_ok; exists b; split; [exact D|]; split; [exact LE|reflexivity]|]. intros (a & A). apply hex_array_ok in A as (b & D & LE & _). exists b. auto. }
  rewrite OKX. unfold LibsecpModel.lib_check. destruct (hex_array 32 (ev_pubkey e)) as [a| |]; cbn [obind].
  - destruct (hex_array 64 (ev_sig e)) as [s| |]; cbn [obind].
    + destruct (cv_lift c a); (split; [discriminate|intros [Q|[_ Q]]; discriminate Q]).
    + split; [discriminate|intros [Q|[_ Q]]; discriminate Q].
    + split; [intros _; right; split; [exists a; reflexivity|reflexivity]|reflexivity].
  - split; [discriminate|intros [Q|[[q Q] _]]; discriminate Q].
  - split; [intros _; left; reflexivity|reflexivity].
Qed.
Theorem C115_default_never_panics e : def_check e <> Panic.
Proof. unfold def_check, check_signature. destruct (hex_decode (ev_pubkey e)); [|discriminate]. destruct (schnorr_parse_pk c _); [|discriminate]. destruct (hex_decode (ev_sig e)); [|discriminate]. destruct (schnorr_parse_sig c _); discriminate. Qed.

(** ** Signing *)
Variable nonce : Z -> str -> str -> Z.
Notation lib_sign := (lib_sign c tag sha nonce).
Lemma lib_signature_checks d h random sg : 1 <= d < cv_n c -> length h = 32%nat -> lib_schnorr_sign c tag nonce d h random = Some sg ->
  length sg = 64%nat /\ exists p, cv_lift c (cv_x c (smul c d (cv_gen c))) = Some p /\ lib_verify c tag sg h p = true.
Proof.
  intros D LH H. pose proof (g_n c L) as N. unfold lib_schnorr_sign in H. cbv zeta in H. set (p := smul c d (cv_gen c)) in *. set (k := nonce d h random mod cv_n c) in *. destruct (Z.eqb_spec k 0) as [Z0|Z0]; [discriminate|]. assert (K : 1 <= k < cv_n c) by (pose proof (Z.mod_pos_bound (nonce d h random) (cv_n c) ltac:(lia)) as W; fold k in W; lia).
  set (rr := smul c k (cv_gen c)) in *. set (d' := if cv_even c p then d else - d) in *. set (k' := if cv_even c rr then k else - k) in *. set (e := lib_challenge c tag (cv_x c rr) (cv_x c p) h) in *. set (z := (k' + e * d') mod cv_n c) in *. assert (SG : sg = cv_x c rr ++ be_bytes 32 z) by congruence. clear H.
  assert (PN : p <> cv_zero c) by (apply (gen_nonzero c L); exact D). assert (RN : rr <> cv_zero c) by (apply (gen_nonzero c L); exact K). assert (ZR : 0 <= z < cv_n c) by (apply Z.mod_pos_bound; lia). pose proof (g_x_len c L rr) as LR.
  assert (LS : length sg = 64%nat) by (rewrite SG, app_length, LR, be_bytes_length; reflexivity). split; [exact LS|].
  set (pk := if cv_even c p then p else cv_neg c p). assert (PK : pk = smul c d' (cv_gen c)) by (unfold pk, d'; destruct (cv_even c p); [reflexivity|rewrite (smul_opp c L); reflexivity]). assert (XPK : cv_x c pk = cv_x c p) by (unfold pk; destruct (cv_even c p); [reflexivity|apply (g_x_neg c L)]).
  exists pk. split; [apply (g_lift c L); exact PN|]. unfold lib_verify. cbv zeta. assert (F1 : firstn 32 sg = cv_x c rr) by (rewrite SG, firstn_app, LR, Nat.sub_diag, firstn_all2 by lia; cbn [firstn]; apply app_nil_r). assert (F2 : skipn 32 sg = be_bytes 32 z) by (rewrite SG, skipn_app, LR, Nat.sub_diag, skipn_all2 by lia; reflexivity).
  rewrite F1, F2, be_val_bytes by (change (256 ^ Z.of_nat 32) with (256 ^ 32); lia). rewrite (proj2 (Z.ltb_lt z (cv_n c))) by lia. rewrite (proj2 (Z.ltb_lt _ _) (g_x_field c L rr)). cbn [andb]. rewrite XPK. fold e. rewrite PK, <- (smul_mul c L), <- (smul_add c L).
  rewrite (smul_eq c (z + - e * d') k') by (unfold z; rewrite Zplus_mod_idemp_l; f_equal; lia).
  assert (KP : smul c k' (cv_gen c) = if cv_even c rr then rr else cv_neg c rr) by (unfold k', rr; destruct (cv_even c (smul c k (cv_gen c))); [reflexivity|apply (smul_opp c L)]). rewrite KP.
  destruct (cv_even c rr) eqn:EV.
  - assert (Z1 : cv_is_zero c rr = false) by (destruct (cv_is_zero c rr) eqn:Q; [apply (g_is_zero c L) in Q; contradiction|reflexivity]). rewrite Z1, EV. cbn [negb andb]. apply seqb_eq. reflexivity.
  - assert (Z1 : cv_is_zero c (cv_neg c rr) = false). { destruct (cv_is_zero c (cv_neg c rr)) eqn:Q; [|reflexivity]. apply (g_is_zero c L) in Q. exfalso. apply RN. rewrite <- (neg_neg c L rr), Q. apply (neg_zero c L). }
    rewrite Z1, (g_even c L rr RN), EV, (g_x_neg c L). cbn [negb andb]. apply seqb_eq. reflexivity.
Qed.
(** What is signed without an error checks in both builds, with its id and with the content it had. *)
Theorem C115_signed mem random sk e e' : lib_sign mem random sk e = (e', Ok tt) ->
  lib_check e' = Ok true /\ (small_hash -> def_check e' = Ok true) /\ ev_id e' = hex_encode (sha (serialize e')) /\
  ev_created_at e' = ev_created_at e /\ ev_kind e' = ev_kind e /\ ev_tags e' = ev_tags e /\ ev_content e' = ev_content e.
Proof.
  intro H. assert (A : exists s d sg, hex_decode sk = Some s /\ 1 <= d < cv_n c /\ (let pk := hex_encode (cv_x c (smul c d (cv_gen c))) in
    let h := sha (serialize (mkEvent (ev_id e) pk (ev_created_at e) (ev_kind e) (ev_tags e) (ev_content e) (ev_sig e))) in
    lib_schnorr_sign c tag nonce d h random = Some sg /\ e' = mkEvent (hex_encode h) pk (ev_created_at e) (ev_kind e) (ev_tags e) (ev_content e) (hex_encode sg))).
  { unfold LibsecpModel.lib_sign in H. destruct (hex_decode sk) as [[|a s]|]; try (injection H; discriminate). destruct (lib_keypair c (read32 mem (a :: s))) as [d|] eqn:K; [|injection H; discriminate]. cbv zeta in H. destruct (lib_schnorr_sign c tag nonce d _ random) as [sg|] eqn:S1; [|injection H; discriminate].
    exists (a :: s), d, sg. split; [reflexivity|]. split; [|cbv zeta; split; [exact S1|injection H as <-; reflexivity]]. unfold lib_keypair in K. cbv zeta in K. destruct (Z.leb_spec 1 (be_val (read32 mem (a :: s)))); destruct (Z.ltb_spec (be_val (read32 mem (a :: s))) (cv_n c)); cbn [andb] in K; try discriminate. injection K as <-. lia. }
  destruct A as (s & d & sg & DS & D & A). cbv zeta in A. destruct A as [SG ->]. set (pk := hex_encode (cv_x c (smul c d (cv_gen c)))) in *. set (h := sha _) in *. assert (HS : sha (serialize (mkEvent (hex_encode h) pk (ev_created_at e) (ev_kind e) (ev_tags e) (ev_content e) (hex_encode sg))) = h) by reflexivity.
  destruct (lib_signature_checks d h random sg D (sha_len _) SG) as (LS & p & LX & V). assert (LC : lib_check (mkEvent (hex_encode h) pk (ev_created_at e) (ev_kind e) (ev_tags e) (ev_content e) (hex_encode sg)) = Ok true).
  { unfold LibsecpModel.lib_check. cbn [ev_pubkey ev_sig]. unfold pk at 1. rewrite (full_array 32 _ _ (hex_decode_encode _) (g_x_len c L _)), (full_array 64 _ _ (hex_decode_encode _) LS). cbn [obind]. rewrite LX, HS, V. reflexivity. }
  split; [exact LC|]. split; [|repeat split; cbn [ev_id]; rewrite HS; reflexivity]. intro SH. refine (proj1 (proj1 (C115_same _ SH _ _)) LC); [cbn [ev_pubkey]; unfold pk; rewrite hex_len, (g_x_len c L); reflexivity|cbn [ev_sig]; rewrite hex_len, LS; reflexivity].
Qed.
(** With a key in range, written in full, signing succeeds unless the nonce is zero, with the public key that GetPublicKey gives. *)
Theorem C115_good_key mem random sk e : good_key (cv_n c) sk -> (forall d h, nonce d h random mod cv_n c <> 0) ->
  exists e', lib_sign mem random sk e = (e', Ok tt) /\ curve_public_key c sk = Ok (ev_pubkey e').
Proof.
  intros (k & K & ->) NZ. pose proof (g_n c L) as N. rewrite (C108_public c L k K). unfold LibsecpModel.lib_sign, key_text. rewrite hex_decode_encode. pose proof (be_bytes_length 32 k) as LB. destruct (be_bytes 32 k) as [|a s] eqn:E; [discriminate LB|]. rewrite <- E in *.
  assert (R : read32 mem (be_bytes 32 k) = be_bytes 32 k) by (unfold read32; rewrite firstn_app, LB, Nat.sub_diag, firstn_all2 by lia; cbn [firstn]; apply app_nil_r). rewrite R.
  assert (KP : lib_keypair c (be_bytes 32 k) = Some k). { unfold lib_keypair. cbv zeta. rewrite be_val_bytes by (change (256 ^ Z.of_nat 32) with (256 ^ 32); lia). rewrite (proj2 (Z.leb_le 1 k)), (proj2 (Z.ltb_lt k _)) by lia. reflexivity. }
  rewrite KP. cbv zeta. unfold lib_schnorr_sign. cbv zeta. destruct (Z.eqb_spec (nonce k (sha (serialize (mkEvent (ev_id e) (hex_encode (cv_x c (smul c k (cv_gen c)))) (ev_created_at e) (ev_kind e) (ev_tags e) (ev_content e) (ev_sig e)))) random mod cv_n c) 0) as [Q|_]; [exfalso; exact (NZ _ _ Q)|]. eexists. split; [reflexivity|reflexivity].
Qed.
(** Of keys with 32 bytes or more the first 32 count, and they are refused exactly when out of range: nothing is reduced, and the event is left as it was. *)
Theorem C115_out_of_range mem random sk s e : hex_decode sk = Some s -> (32 <= length s)%nat -> (forall d h, nonce d h random mod cv_n c <> 0) ->
  (snd (lib_sign mem random sk e) = Err <-> ~ (1 <= be_val (firstn 32 s) < cv_n c)) /\ (snd (lib_sign mem random sk e) = Err -> fst (lib_sign mem random sk e) = e) /\ snd (lib_sign mem random sk e) <> Panic.
Proof.
  intros D LE NZ. unfold LibsecpModel.lib_sign. rewrite D. destruct s as [|a s]; [cbn in LE; lia|]. assert (R : read32 mem (a :: s) = firstn 32 (a :: s)). { unfold read32. rewrite firstn_app. replace (32 - length (a :: s))%nat with 0%nat by lia. cbn [firstn]. apply app_nil_r. } rewrite R. unfold lib_keypair. cbv zeta. set (d := be_val (firstn 32 (a :: s))).
  destruct (Z.leb_spec 1 d), (Z.ltb_spec d (cv_n c)); cbn [andb fst snd]; try (repeat split; [intros _; lia|discriminate]).
  unfold lib_schnorr_sign. cbv zeta. destruct (Z.eqb_spec (nonce d (sha (serialize (mkEvent (ev_id e) (hex_encode (cv_x c (smul c d (cv_gen c)))) (ev_created_at e) (ev_kind e) (ev_tags e) (ev_content e) (ev_sig e)))) random mod cv_n c) 0) as [Q|_]; [exfalso; exact (NZ _ _ Q)|]. cbn [fst snd]. repeat split; try discriminate. intro Q. exfalso. apply Q. lia.
Qed.
(** A key of fewer bytes is filled with what lies after it in memory; the empty key ends the program. *)
Theorem C115_no_hex mem random sk e : hex_decode sk = None -> lib_sign mem random sk e = (e, Err).
Proof. intro H. unfold LibsecpModel.lib_sign. rewrite H. reflexivity. Qed.
Theorem C115_empty_key mem random e : lib_sign mem random [] e = (e, Panic).
Proof. reflexivity. Qed.
End Both.

(** ** Cases, on the curve of order 101 *)
Definition tiny_sha (m : str) : str := be_bytes 32 (Z.of_nat (length m)).
Lemma tiny_lawful : lawful_curve tiny_curve.
Proof. apply toy_curve_lawful; [split; vm_compute; congruence|vm_compute; congruence|reflexivity]. Qed.
Definition tiny_tag (m : str) : str := be_bytes 32 (Z.of_nat (length m) mod 101).
Lemma tiny_small : small_hash tiny_curve tiny_tag.
Proof. intro m. unfold tiny_tag. pose proof (Z.mod_pos_bound (Z.of_nat (length m)) 101 eq_refl). rewrite be_val_bytes; cbn [cv_n tiny_curve toy_curve]; [|change (256 ^ Z.of_nat 32) with (256 ^ 32)]; lia. Qed.
Definition draft : event := mkEvent [] [] 1700000000 1 [] (B "hi") [].
(** With this nonce the second half of the signature is zero. *)
Definition zero_nonce (_ : Z) (_ _ : str) : Z := 101 - (3 * 96) mod 101.
Definition signed3 : event := fst (lib_sign tiny_curve tiny_tag tiny_sha zero_nonce [] [] (key_text 3) draft).
Example C115_example :
  snd (lib_sign tiny_curve tiny_tag tiny_sha zero_nonce [] [] (key_text 3) draft) = Ok tt /\ ev_pubkey signed3 = key_text 3 /\
  lib_check tiny_curve tiny_tag tiny_sha signed3 = Ok true /\ def_check tiny_curve tiny_tag tiny_sha signed3 = Ok true.
Proof. vm_compute. repeat split. Qed.
(** Two texts of one signature check in the build with libsecp256k1. *)
Theorem C115_one_text_refuted : exists e t1 t2, t1 <> t2 /\ lib_check tiny_curve tiny_tag tiny_sha (with_sig t1 e) = Ok true /\ lib_check tiny_curve tiny_tag tiny_sha (with_sig t2 e) = Ok true /\
  def_check tiny_curve tiny_tag tiny_sha (with_sig t2 e) = Err.
Proof. exists signed3, (ev_sig signed3), (firstn 64 (ev_sig signed3)). split; [vm_compute; discriminate|]. vm_compute. repeat split. Qed.
(** An event from a relay ends the program: one more byte in the key, or in the signature. *)
Theorem C115_no_panic_refuted : exists e1 e2, lib_check tiny_curve tiny_tag tiny_sha e1 = Panic /\ lib_check tiny_curve tiny_tag tiny_sha e2 = Panic /\ def_check tiny_curve tiny_tag tiny_sha e1 = Err /\ def_check tiny_curve tiny_tag tiny_sha e2 = Err /\
  ev_pubkey e1 = repeat "0"%char 66 /\ ev_sig e2 = repeat "0"%char 130.
Proof. exists (mkEvent [] (repeat "0"%char 66) 0 1 [] [] []), (mkEvent [] (key_text 3) 0 1 [] [] (repeat "0"%char 130)). vm_compute. repeat split. Qed.
(** The two builds sign with different keys: one reduces a key that is not below the order, the other refuses it. *)
Theorem C115_same_keys_refuted : exists sk, snd (lib_sign tiny_curve tiny_tag tiny_sha zero_nonce [] [] sk draft) = Err /\
  exists e, sign tiny_sha (pub_of tiny_curve) (schnorr_sign tiny_curve tiny_tag (fun _ _ _ => 5) 1) sk draft = Ok e /\ def_check tiny_curve tiny_tag tiny_sha e = Ok true.
Proof. exists (key_text 104). split; [vm_compute; reflexivity|]. eexists. split; [vm_compute; reflexivity|vm_compute; reflexivity]. Qed.
(** A short key is signed with, and who signs depends on what lies after it in memory. GetPublicKey gives another key still. *)
Theorem C115_short_key_refuted : exists sk mem1 mem2 e1 e2, lib_sign tiny_curve tiny_tag tiny_sha zero_nonce mem1 [] sk draft = (e1, Ok tt) /\ lib_sign tiny_curve tiny_tag tiny_sha zero_nonce mem2 [] sk draft = (e2, Ok tt) /\
  ev_pubkey e1 <> ev_pubkey e2 /\ (forall p, curve_public_key tiny_curve sk = Ok p -> p <> ev_pubkey e1 /\ p <> ev_pubkey e2).
Proof.
  exists (repeat "0"%char 62), [byte_of 3], [byte_of 4]. eexists. eexists. split; [vm_compute; reflexivity|]. split; [vm_compute; reflexivity|]. split; [vm_compute; discriminate|]. intros p H. vm_compute in H. injection H as <-. split; vm_compute; discriminate.
Qed.

Print Assumptions C115_accepts.
Print Assumptions C115_same.
Print Assumptions C115_accepts_exactly.
Print Assumptions C115_second_text.
Print Assumptions C115_panics_exactly.
Print Assumptions C115_default_never_panics.
Print Assumptions C115_signed.
Print Assumptions C115_good_key.
Print Assumptions C115_out_of_range.
Print Assumptions C115_empty_key.
Print Assumptions C115_no_hex.
Print Assumptions C115_one_text_refuted.
Print Assumptions C115_no_panic_refuted.
Print Assumptions C115_same_keys_refuted.
Print Assumptions C115_short_key_refuted.
