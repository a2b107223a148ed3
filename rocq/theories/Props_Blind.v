(** C109: blind signatures. What a mint signs unblinds to its signature of the secret; what the wallet accepts the receiver accepts; the mint learns nothing. *)
From Coq Require Import Znumtheory.
From Verif Require Import Base EventModel KeyModel KeyProofs BlindModel Props_Key.
Import ListNotations.
Local Open Scope Z_scope.

Section Blind.
Variable c : curve.
Hypothesis L : lawful_curve c.
Variable to_curve : str -> option (cv_P c).
Variable hash_e : list (cv_P c) -> str.
Notation P := (cv_P c). Notation G := (cv_gen c). Notation n := (cv_n c).
Local Notation blind := (blind c to_curve). Local Notation construct_proofs := (construct_proofs c hash_e). Local Notation verify_proof := (verify_proof c to_curve hash_e).
Local Notation prepare := (prepare c to_curve). Local Notation mint_sign := (mint_sign c hash_e). Local Notation verify_dleq := (verify_dleq c hash_e).

Lemma n_pos : 0 < n. Proof. pose proof (g_n c L). lia. Qed.
Lemma read_point_text p : p <> cv_zero c -> read_point c (point_text c p) = Some p.
Proof.
  intro NZ. unfold read_point, point_text. rewrite hex_decode_encode. unfold compressed, parse_point. rewrite (g_x_len c L). cbn [Nat.eqb]. rewrite (g_lift c L p NZ). destruct (cv_even c p); [reflexivity|]. rewrite (neg_neg c L). reflexivity.
Qed.
Lemma read_point_nonzero t p : read_point c t = Some p -> p <> cv_zero c.
Proof.
  unfold read_point. destruct (hex_decode t) as [b|]; [|discriminate]. unfold parse_point. destruct b as [|f x]; [discriminate|]. destruct (Nat.eqb (length x) 32); [|discriminate]. destruct (cv_lift c x) as [q|] eqn:E; [|discriminate]. apply (g_lift_some c L) in E. destruct E as (NZ & _ & _).
  destruct (val f =? 2)%N; [intro H; congruence|]. destruct (val f =? 3)%N; [|discriminate]. intros H Z0. assert (Q : cv_neg c q = p) by congruence. apply NZ. rewrite <- (neg_neg c L q), Q, Z0. apply (neg_zero c L).
Qed.
(** The point at infinity cannot be read back. *)
Lemma read_zero_text : read_point c (point_text c (cv_zero c)) = None.
Proof. pose proof (g_no_zero_x c L) as H. unfold read_point, point_text. rewrite hex_decode_encode. unfold compressed, parse_point. rewrite (g_x_len c L), (g_x_zero c L), H. reflexivity. Qed.
Lemma read_scalar_text k : read_scalar c (scalar_text c k) = Some (k mod n).
Proof.
  pose proof (g_n c L) as N. pose proof (Z.mod_pos_bound k n n_pos) as M. unfold read_scalar, scalar_text. rewrite hex_decode_encode. unfold scalar. rewrite firstn_all2 by (rewrite be_bytes_length; lia). rewrite be_val_bytes by (change (256 ^ Z.of_nat 32) with (256 ^ 32); lia). rewrite Z.mod_mod by lia. reflexivity.
Qed.
Lemma scalar_text_cons k : exists x y, scalar_text c k = x :: y.
Proof. unfold scalar_text. destruct (hex_encode (be_bytes 32 (k mod n))) as [|x y] eqn:E; [apply (f_equal (@length ascii)) in E; rewrite hex_len, be_bytes_length in E; discriminate|]. exists x, y. reflexivity. Qed.
Lemma smul_sub_self s a : cv_add c (smul c s a) (cv_neg c (smul c s a)) = cv_zero c. Proof. apply (g_neg c L). Qed.
Lemma unblind_blind x r a : cv_add c (unblind c x r a) (smul c r a) = x.
Proof. unfold unblind. rewrite <- (g_assoc c L). rewrite (g_comm c L (cv_neg c _)). rewrite (g_neg c L). apply (zero_r c L). Qed.
(** [sig k y]: the mint's signature of a point *)
Lemma unblind_signed k y r : unblind c (smul c k (cv_add c y (smul c r G))) r (smul c k G) = smul c k y.
Proof.
  unfold unblind. rewrite (smul_add_point c L), <- !(smul_mul c L), (Z.mul_comm r k). rewrite <- (g_assoc c L), (g_neg c L). apply (zero_r c L).
Qed.

(** ** The wallet and any mint *)
Definition ours (keys : Z -> option P) (p : prep) (b : bsig) (q : cproof) : Prop :=
  exists a c_, keys (bs_amount b) = Some a /\ read_point c (bs_C b) = Some c_ /\
    cp_amount q = bs_amount b /\ cp_id q = bs_id b /\ cp_secret q = pp_secret p /\ cp_C q = point_text c (cv_add c c_ (cv_neg c (smul c (pp_r p) a))) /\
    (bs_dleq b = None -> cp_dleq q = None) /\
    forall d, bs_dleq b = Some d -> verify_blind_dleq c hash_e d a (pp_B p) (bs_C b) = true /\ cp_dleq q = Some (mkDleq (dq_e d) (dq_s d) (scalar_text c (pp_r p))).
Theorem C109_constructed keys : forall sigs preps ps, construct_proofs keys preps sigs = Ok ps ->
  exists used rest, preps = used ++ rest /\ length used = length sigs /\ length ps = length sigs /\
    forall i p b q, nth_error used i = Some p -> nth_error sigs i = Some b -> nth_error ps i = Some q -> ours keys p b q.
Proof.
  induction sigs as [|b sigs IH]; intros preps ps H.
  - cbn [BlindModel.construct_proofs] in H. assert (E : ps = []) by congruence. subst ps. exists [], preps. repeat split; auto. intros [|i]; discriminate.
  - cbn [BlindModel.construct_proofs] in H. destruct (keys (bs_amount b)) as [a|] eqn:K; [|discriminate]. destruct preps as [|p preps]; [discriminate|]. destruct (match bs_dleq b with Some d => _ | None => false end) eqn:V; [discriminate|].
    unfold unblind_signature in H. destruct (read_point c (bs_C b)) as [c_|] eqn:RP; [|discriminate]. destruct (construct_proofs keys preps sigs) as [ps'| |] eqn:R; cbn [obind] in H; try discriminate. destruct (IH _ _ R) as (used & rest & E1 & E2 & E3 & E4).
    exists (p :: used), rest. split; [rewrite E1; reflexivity|]. split; [cbn; lia|]. assert (E : ps = mkCproof (bs_amount b) (pp_secret p) (point_text c (unblind c c_ (pp_r p) a)) (bs_id b) (match bs_dleq b with Some d => Some (mkDleq (dq_e d) (dq_s d) (scalar_text c (pp_r p))) | None => None end) :: ps') by congruence. subst ps. split; [cbn; lia|].
    intros [|i] p' b' q' H1 H2 H3; cbn [nth_error] in *; [|exact (E4 i p' b' q' H1 H2 H3)]. assert (p' = p /\ b' = b) as [-> ->] by (split; congruence). assert (Q : q' = mkCproof (bs_amount b) (pp_secret p) (point_text c (unblind c c_ (pp_r p) a)) (bs_id b) (match bs_dleq b with Some d => Some (mkDleq (dq_e d) (dq_s d) (scalar_text c (pp_r p))) | None => None end)) by congruence. subst q'.
    exists a, c_. cbn [cp_amount cp_id cp_secret cp_C cp_dleq]. repeat split; auto.
    + intros ->. reflexivity.
    + match goal with H : bs_dleq b = Some _ |- _ => rewrite H in V end. destruct (verify_blind_dleq _ _ _ _ _ _); [reflexivity|discriminate].
    + match goal with H : bs_dleq b = Some _ |- _ => rewrite H end. reflexivity.
Qed.
Lemma read_back p q : read_point c (point_text c p) = Some q -> p = q /\ p <> cv_zero c.
Proof.
  intro H. assert (NZ : p <> cv_zero c) by (intros ->; rewrite read_zero_text in H; discriminate). rewrite (read_point_text p NZ) in H. split; [congruence|exact NZ].
Qed.
(** Whatever the mint answered: a proof that came with a DLEQ the wallet accepted is accepted by whoever receives it in a nutzap, unless it is the point at
    infinity (the mint would have to sign with the wallet's blinding). *)
Theorem C109_receiver_accepts keys p b q secret r : prepare secret r = Some p -> ours keys p b q -> cp_dleq q <> None ->
  (forall x a, read_point c (bs_C b) = Some x -> keys (bs_amount b) = Some a -> x <> smul c r a) ->
  verify_proof q (keys (cp_amount q)) = Ok true.
Proof.
  intros PR (a & c_ & KA & RC & E1 & E2 & E3 & E4 & E5 & E6) DN NI. specialize (NI c_ a RC KA). destruct (bs_dleq b) as [d|] eqn:D; [|exfalso; apply DN; apply E5; reflexivity]. destruct (E6 d eq_refl) as [V DQ]. unfold BlindModel.prepare in PR. destruct (blind secret r) as [bp|] eqn:BL; [|discriminate]. assert (PE : p = mkPrep (point_text c bp) secret r) by congruence. subst p. cbn [pp_B pp_secret pp_r] in *.
  unfold verify_blind_dleq in V. destruct (parse_dleq c d) as [[[e s] o]|] eqn:PD; [|discriminate]. destruct (read_point c (point_text c bp)) as [bp'|] eqn:RB; [|discriminate]. apply read_back in RB. destruct RB as [<- BNZ]. rewrite RC in V.
  assert (PD' : parse_dleq c (mkDleq (dq_e d) (dq_s d) (scalar_text c r)) = Some (e, s, Some (r mod n))).
  { unfold parse_dleq in *. cbn [dq_e dq_s dq_r]. destruct (read_scalar c (dq_e d)) as [e'|]; [|discriminate]. destruct (read_scalar c (dq_s d)) as [s'|]; [|discriminate]. assert (ES : e' = e /\ s' = s) by (destruct (dq_r d); [split; congruence|destruct (read_scalar c _); [split; congruence|discriminate]]). destruct ES as [-> ->]. rewrite read_scalar_text. destruct (scalar_text_cons r) as (x & y & ->). reflexivity. }
  unfold BlindModel.verify_proof. rewrite DQ, PD', E3, E1, KA. assert (BM : blind secret (r mod n) = Some bp) by (rewrite <- BL; unfold BlindModel.blind; destruct (to_curve secret); [rewrite (smul_mod c L)|]; reflexivity). rewrite BM.
  assert (CN : cv_add c c_ (cv_neg c (smul c r a)) <> cv_zero c). { intro Z0. apply NI. rewrite <- (zero_r c L (smul c r a)), <- Z0. rewrite (g_comm c L c_), (g_assoc c L), (g_neg c L), (g_zero c L). reflexivity. }
  rewrite E4, (read_point_text _ CN). do 2 f_equal. rewrite (smul_mod c L). change (cv_add c c_ (cv_neg c (smul c r a))) with (unblind c c_ r a). rewrite unblind_blind. exact V.
Qed.

(** ** An honest mint *)
Lemma mint_dleq_ok k t b_ : let a := smul c k G in let c_ := smul c k b_ in
  length (hash_e [smul c t G; smul c t b_; a; c_]) = 32%nat -> be_val (hash_e [smul c t G; smul c t b_; a; c_]) < n ->
  exists e s, parse_dleq c (mint_dleq c hash_e k t a b_ c_) = Some (e, s, None) /\ verify_dleq e s a b_ c_ = true.
Proof.
  cbv zeta. intros HL HN. set (h := hash_e _) in *. pose proof (be_val_range h) as HR. exists ((be_val h mod n) mod n), ((t + (be_val h mod n) * k) mod n). unfold mint_dleq, parse_dleq. cbn [dq_e dq_s dq_r]. fold h. rewrite !read_scalar_text. split; [reflexivity|].
  rewrite !(Z.mod_small (be_val h) n) by lia. unfold BlindModel.verify_dleq. rewrite (Z.mod_small (be_val h) n) by lia.
  assert (C1 : commit1 c (be_val h) ((t + be_val h * k) mod n) (smul c k G) = smul c t G). { unfold commit1. rewrite (smul_mod c L), <- (smul_mul c L), <- (smul_add c L). f_equal. lia. }
  assert (C2 : commit2 c (be_val h) ((t + be_val h * k) mod n) b_ (smul c k b_) = smul c t b_). { unfold commit2. rewrite (smul_mod c L), <- (smul_mul c L), <- (smul_add c L). f_equal. lia. }
  rewrite C1, C2. fold h. apply seqb_eq. rewrite <- HL. apply be_bytes_val.
Qed.
(** The proof made from an honest mint's answer carries the mint's signature of the secret: it does not depend on the blinding. It has the DLEQ, and the receiver accepts it. *)
Theorem C109_honest k t amount id secret y r keys p b rest sigs ps :
  to_curve secret = Some y -> cv_add c y (smul c r G) <> cv_zero c -> smul c k (cv_add c y (smul c r G)) <> cv_zero c ->
  keys amount = Some (smul c k G) -> prepare secret r = Some p -> mint_sign k t amount id (pp_B p) = Some b ->
  (forall l, length (hash_e l) = 32%nat) -> be_val (hash_e [smul c t G; smul c t (cv_add c y (smul c r G)); smul c k G; smul c k (cv_add c y (smul c r G))]) < n ->
  construct_proofs keys rest sigs = Ok ps ->
  exists q, construct_proofs keys (p :: rest) (b :: sigs) = Ok (q :: ps) /\ cp_amount q = amount /\ cp_id q = id /\ cp_secret q = secret /\ cp_C q = point_text c (smul c k y) /\
    (smul c k y <> cv_zero c -> verify_proof q (Some (smul c k G)) = Ok true).
Proof.
  intros TY BNZ CNZ KA PR MS HL HN RS. assert (BL : blind secret r = Some (cv_add c y (smul c r G))) by (unfold BlindModel.blind; rewrite TY; reflexivity). pose proof PR as PR0. unfold BlindModel.prepare in PR. rewrite BL in PR. assert (PE : p = mkPrep (point_text c (cv_add c y (smul c r G))) secret r) by congruence. subst p. cbn [pp_B pp_secret pp_r] in *. set (b_ := cv_add c y (smul c r G)) in *.
  unfold BlindModel.mint_sign in MS. rewrite (read_point_text b_ BNZ) in MS. cbv zeta in MS. assert (BE : b = mkBsig amount (point_text c (smul c k b_)) id (Some (mint_dleq c hash_e k t (smul c k G) b_ (smul c k b_)))) by congruence. subst b. clear MS PR.
  destruct (mint_dleq_ok k t b_ (HL _) HN) as (e & s & PD & VD).
  assert (VB : verify_blind_dleq c hash_e (mint_dleq c hash_e k t (smul c k G) b_ (smul c k b_)) (smul c k G) (point_text c b_) (point_text c (smul c k b_)) = true) by (unfold verify_blind_dleq; rewrite PD, (read_point_text b_ BNZ), (read_point_text _ CNZ); exact VD).
  eexists. split.
  - cbn [BlindModel.construct_proofs bs_amount bs_dleq bs_C bs_id pp_B pp_r pp_secret]. rewrite KA, VB. cbn [negb]. unfold unblind_signature. rewrite (read_point_text _ CNZ). rewrite RS. cbn [obind]. reflexivity.
  - cbn [cp_amount cp_id cp_secret cp_C]. unfold b_. rewrite unblind_signed. repeat split. intro SNZ. fold b_.
    refine (_ : verify_proof (mkCproof amount secret (point_text c (smul c k y)) id _) (Some (smul c k G)) = Ok true). cbn [dq_e dq_s].
    assert (OU : ours (fun _ => Some (smul c k G)) (mkPrep (point_text c b_) secret r) (mkBsig amount (point_text c (smul c k b_)) id (Some (mint_dleq c hash_e k t (smul c k G) b_ (smul c k b_)))) (mkCproof amount secret (point_text c (smul c k y)) id (Some (mkDleq (dq_e (mint_dleq c hash_e k t (smul c k G) b_ (smul c k b_))) (dq_s (mint_dleq c hash_e k t (smul c k G) b_ (smul c k b_))) (scalar_text c r))))).
    { exists (smul c k G), (smul c k b_). cbn [bs_amount bs_C bs_id bs_dleq cp_amount cp_id cp_secret cp_C cp_dleq pp_B pp_secret pp_r]. split; [reflexivity|]. split; [apply read_point_text; exact CNZ|]. do 3 (split; [reflexivity|]). split; [f_equal; symmetry; apply unblind_signed|]. split; [discriminate|]. intros d E. assert (ED : d = mint_dleq c hash_e k t (smul c k G) b_ (smul c k b_)) by congruence. subst d. split; [exact VB|reflexivity]. }
    apply (C109_receiver_accepts _ _ _ _ secret r PR0 OU); [cbn [cp_dleq]; discriminate|]. cbn [bs_C bs_amount]. intros x a RX KX. rewrite (read_point_text _ CNZ) in RX. assert (x = smul c k b_ /\ a = smul c k G) as [-> ->] by (split; congruence). intro Q. apply SNZ. rewrite <- (unblind_signed k y r). fold b_. rewrite Q. apply (g_neg c L).
Qed.

(** ** The DLEQ is sound: for a signature that is not the mint's, each pair of commitments leaves at most one hash that can be answered *)
Lemma inverse d : prime n -> d mod n <> 0 -> exists u, (u * d) mod n = 1.
Proof.
  intros PN ND. pose proof (g_n c L) as N. assert (RP : rel_prime d n) by (apply rel_prime_sym, prime_rel_prime; [exact PN|]; intro DV; apply ND; apply Zdivide_mod; exact DV). destruct (rel_prime_bezout _ _ RP) as [u v E]. exists u. replace (u * d) with (1 + (- v) * n) by lia. rewrite Z_mod_plus_full. apply Z.mod_small. lia.
Qed.
Theorem C109_sound k b_ c_ e s e' s' : prime n -> commit1 c e s (smul c k G) = commit1 c e' s' (smul c k G) -> commit2 c e s b_ c_ = commit2 c e' s' b_ c_ ->
  e mod n <> e' mod n -> c_ = smul c k b_.
Proof.
  intros PN C1 C2 NE. pose proof (g_n c L) as N. assert (ND : (e - e') mod n <> 0). { intro Q. apply NE. apply Z.mod_divide in Q; [|lia]. destruct Q as [q Q]. replace e with (e' + q * n) by lia. apply Z_mod_plus_full. }
  destruct (inverse (e - e') PN ND) as [u U].
  assert (D : forall g a, cv_add c (smul c s g) (smul c (- e) a) = cv_add c (smul c s' g) (smul c (- e') a) -> smul c (s - s') g = smul c (e - e') a).
  { intros g a H. unfold Z.sub. rewrite !(smul_add c L), !(smul_opp c L). rewrite !(smul_opp c L) in H. apply (f_equal (fun x => cv_add c (cv_add c x (smul c e a)) (cv_neg c (smul c s' g)))) in H.
    rewrite <- (g_assoc c L (smul c s g)) in H. rewrite (g_comm c L (cv_neg c (smul c e a))), (g_neg c L), (zero_r c L) in H. rewrite H. rewrite <- !(g_assoc c L). rewrite (g_comm c L (smul c s' g)). rewrite <- !(g_assoc c L). rewrite (g_comm c L (cv_neg c (smul c s' g)) (smul c s' g)), (g_neg c L), (zero_r c L). apply (g_comm c L). }
  unfold commit1, commit2 in *. apply D in C1. apply D in C2. apply (f_equal (smul c u)) in C1. apply (f_equal (smul c u)) in C2. rewrite <- !(smul_mul c L) in C1, C2.
  assert (ONE : forall a, smul c (u * (e - e')) a = a). { intro a. rewrite (smul_eq c _ 1) by (rewrite U; symmetry; apply Z.mod_small; lia). apply (smul_1 c L). } rewrite ONE in C2. rewrite <- C2. apply (smul_eq c).
  assert (KK : smul c (u * (s - s')) G = smul c k G) by (rewrite C1; apply ONE).
  assert (Z0 : (u * (s - s') - k) mod n = 0). { apply (g_gen c L). unfold Z.sub at 1. rewrite (smul_add c L), (smul_opp c L), KK. apply (g_neg c L). }
  apply Z.mod_divide in Z0; [|lia]. destruct Z0 as [q Q]. replace (u * (s - s')) with (k + q * n) by lia. apply Z_mod_plus_full.
Qed.
End Blind.

(** Said of the receiver's check: were the hash function another one, giving another value on the same commitments, it could not be satisfied too
    unless the proof is the mint's signature of the secret. *)
Theorem C109_sound_receiver c to_curve h1 h2 k p1 p2 y r e s e' s' cc : lawful_curve c -> prime (cv_n c) -> to_curve (cp_secret p1) = Some y -> cp_secret p2 = cp_secret p1 -> cp_C p2 = cp_C p1 -> read_point c (cp_C p1) = Some cc ->
  (exists d, cp_dleq p1 = Some d /\ parse_dleq c d = Some (e, s, Some r)) -> (exists d, cp_dleq p2 = Some d /\ parse_dleq c d = Some (e', s', Some r)) ->
  verify_proof c to_curve h1 p1 (Some (smul c k (cv_gen c))) = Ok true -> verify_proof c to_curve h2 p2 (Some (smul c k (cv_gen c))) = Ok true ->
  commit1 c e s (smul c k (cv_gen c)) = commit1 c e' s' (smul c k (cv_gen c)) ->
  commit2 c e s (cv_add c y (smul c r (cv_gen c))) (cv_add c cc (smul c r (smul c k (cv_gen c)))) = commit2 c e' s' (cv_add c y (smul c r (cv_gen c))) (cv_add c cc (smul c r (smul c k (cv_gen c)))) ->
  cc <> smul c k y ->
  forall l, l = [commit1 c e s (smul c k (cv_gen c)); commit2 c e s (cv_add c y (smul c r (cv_gen c))) (cv_add c cc (smul c r (smul c k (cv_gen c)))); smul c k (cv_gen c); cv_add c cc (smul c r (smul c k (cv_gen c)))] -> h1 l = h2 l.
Proof.
  intros L PN TY S2 CE RC (d & D1 & PD1) (d' & D2 & PD2) V1 V2 C1 C2 NS l ->. unfold verify_proof in V1, V2. rewrite D1, PD1 in V1. rewrite D2, PD2, S2, CE in V2. unfold blind in V1, V2. rewrite TY, RC in V1, V2. set (a := smul c k (cv_gen c)) in *. set (b_ := cv_add c y (smul c r (cv_gen c))) in *. set (c_ := cv_add c cc (smul c r a)) in *.
  assert (W1 : verify_dleq c h1 e s a b_ c_ = true) by congruence. assert (W2 : verify_dleq c h2 e' s' a b_ c_ = true) by congruence. unfold verify_dleq in W1, W2. apply seqb_eq in W1, W2. rewrite <- W1. rewrite C1, C2, <- W2. f_equal.
  destruct (Z.eq_dec (e mod cv_n c) (e' mod cv_n c)) as [E|NE]; [exact E|]. exfalso. apply NS. assert (Q : c_ = smul c k b_) by (eapply C109_sound; eassumption). unfold c_, b_ in Q. rewrite (smul_add_point c L) in Q. unfold a in Q. rewrite <- !(smul_mul c L), (Z.mul_comm r k) in Q.
  rewrite (g_comm c L cc), (g_comm c L (smul c k y)) in Q. apply (cancel c L) in Q. exact Q.
Qed.

(** ** The mint learns nothing: for every secret, the blinded message it saw comes from exactly one blinding, and with that one the proof is the same *)
Theorem C109_blind c y b_ : lawful_curve c -> (forall p, exists k, p = smul c k (cv_gen c)) ->
  exists r, 0 <= r < cv_n c /\ b_ = cv_add c y (smul c r (cv_gen c)) /\
    (forall r', 0 <= r' < cv_n c -> b_ = cv_add c y (smul c r' (cv_gen c)) -> r' = r) /\
    forall k, unblind c (smul c k b_) r (smul c k (cv_gen c)) = smul c k y.
Proof.
  intros L CY. pose proof (g_n c L) as N. destruct (CY (cv_add c b_ (cv_neg c y))) as [j J].
  assert (E : b_ = cv_add c y (smul c (j mod cv_n c) (cv_gen c))) by (rewrite (smul_mod c L), <- J, (g_comm c L b_), (g_assoc c L), (g_neg c L), (g_zero c L); reflexivity).
  exists (j mod cv_n c). split; [apply Z.mod_pos_bound; lia|]. split; [exact E|]. split.
  - intros r' R' E'. rewrite E in E'. apply (cancel c L) in E'. assert (Z0 : (j mod cv_n c - r') mod cv_n c = 0) by (apply (g_gen c L); unfold Z.sub; rewrite (smul_add c L), (smul_opp c L), E'; apply (g_neg c L)).
    pose proof (Z.mod_pos_bound j (cv_n c) ltac:(lia)). apply Z.mod_divide in Z0; [|lia]. destruct Z0 as [q Q]. assert (q = 0 \/ 1 <= q \/ q <= -1) by lia. nia.
  - intro k. rewrite E. apply unblind_signed; assumption.
Qed.

(** ** What is not checked *)
(** Without a DLEQ the wallet accepts any point whatever as a signature. *)
Theorem C109_no_dleq_refuted c hash_e keys p x amount id a : lawful_curve c -> keys amount = Some a -> x <> cv_zero c ->
  exists q, construct_proofs c hash_e keys [p] [mkBsig amount (point_text c x) id None] = Ok [q] /\ cp_C q = point_text c (unblind c x (pp_r p) a) /\ verify_proof c (fun _ => None) hash_e q (Some a) = Panic.
Proof.
  intros L K NZ. eexists. split; [|split].
  - cbn [construct_proofs bs_amount bs_dleq bs_C bs_id]. rewrite K. cbn [negb]. unfold unblind_signature. rewrite (read_point_text c L x NZ). cbn [obind]. reflexivity.
  - reflexivity.
  - reflexivity.
Qed.
(** More signatures than outputs: it panics. *)
Theorem C109_too_many_refuted c hash_e keys b a : keys (bs_amount b) = Some a -> construct_proofs c hash_e keys [] [b] = Panic.
Proof. intro K. cbn [construct_proofs]. rewrite K. reflexivity. Qed.
(** Whoever sees a proof with its DLEQ knows the blinded message: the mint can tell which of its signatures it was. *)
Theorem C109_linked_refuted c to_curve hash_e keys p b q secret r d : lawful_curve c -> prepare c to_curve secret r = Some p -> ours c hash_e keys p b q -> cp_dleq q = Some d ->
  exists e s r', parse_dleq c d = Some (e, s, Some r') /\ match blind c to_curve (cp_secret q) r' with Some x => point_text c x = pp_B p | None => False end.
Proof.
  intros L PR (a & c_ & KA & RC & E1 & E2 & E3 & E4 & E5 & E6) DQ. destruct (bs_dleq b) as [d0|] eqn:D; [|rewrite (E5 eq_refl) in DQ; discriminate]. destruct (E6 d0 eq_refl) as [V DQ']. rewrite DQ in DQ'. assert (DE : d = mkDleq (dq_e d0) (dq_s d0) (scalar_text c (pp_r p))) by congruence. subst d.
  unfold prepare in PR. destruct (blind c to_curve secret r) as [bp|] eqn:BL; [|discriminate]. assert (PE : p = mkPrep (point_text c bp) secret r) by congruence. subst p. cbn [pp_B pp_secret pp_r] in *.
  unfold verify_blind_dleq, parse_dleq in V. destruct (read_scalar c (dq_e d0)) as [e|] eqn:RE; [|discriminate]. destruct (read_scalar c (dq_s d0)) as [s|] eqn:RS; [|discriminate].
  exists e, s, (r mod cv_n c). split.
  - unfold parse_dleq. cbn [dq_e dq_s dq_r]. rewrite RE, RS, (read_scalar_text c L). destruct (scalar_text_cons c r) as (x & y & ->). reflexivity.
  - rewrite E3. unfold blind in *. destruct (to_curve secret) as [y|]; [|discriminate]. rewrite (smul_mod c L). f_equal. congruence.
Qed.

(** ** A case on the curve of order 101: the mint's key is 7, the secret falls on 20, the blinding is 33 *)
Definition demo_to (s : str) : option (cv_P tiny_curve) := match s with [] => None | _ => Some (res 101 20) end.
Definition demo_hash (l : list (cv_P tiny_curve)) : str := be_bytes 32 (fold_left (fun x p => (x * 5 + proj1_sig p) mod 97) l 1).
Definition demo_keys (a : Z) : option (cv_P tiny_curve) := if a =? 8 then Some (res 101 7) else None.
Example C109_example :
  match prepare tiny_curve demo_to (B "secret") 33 with
  | Some p => match mint_sign tiny_curve demo_hash 7 12 8 (B "ks") (pp_B p) with
              | Some b => match construct_proofs tiny_curve demo_hash demo_keys [p] [b] with
                          | Ok [q] => cp_C q = point_text tiny_curve (res 101 140) /\ verify_proof tiny_curve demo_to demo_hash q (demo_keys 8) = Ok true /\
                                      verify_proof tiny_curve demo_to demo_hash (mkCproof 8 (B "secret") (point_text tiny_curve (res 101 41)) (B "ks") (cp_dleq q)) (demo_keys 8) = Ok false
                          | _ => False
                          end
              | None => False
              end
  | None => False
  end.
Proof. vm_compute. repeat split. Qed.
Lemma tiny_lawful : lawful_curve tiny_curve.
Proof. apply toy_curve_lawful; [split; vm_compute; congruence|vm_compute; congruence|reflexivity]. Qed.
(** The order is prime, and every point is a multiple of the generator. *)
Example C109_tiny_prime : prime (cv_n tiny_curve) /\ forall p, exists k, p = smul tiny_curve k (cv_gen tiny_curve).
Proof.
  split.
  - apply prime_intro; [reflexivity|]. intros m M. apply Zgcd_1_rel_prime. assert (A : forallb (fun i => Z.gcd (Z.of_nat i) 101 =? 1) (seq 1 100) = true) by (vm_compute; reflexivity). rewrite forallb_forall in A. specialize (A (Z.to_nat m)). rewrite Z2Nat.id in A by (cbn in M; lia). apply Z.eqb_eq. apply A. apply in_seq. cbn [cv_n tiny_curve toy_curve] in M. lia.
  - intro p. exists (proj1_sig p). apply res_eq. unfold tiny_curve. rewrite toy_smul by (split; vm_compute; congruence). cbn [toy_curve cv_gen res proj1_sig]. rewrite Zmult_mod_idemp_r, Z.mul_1_r. symmetry. apply residue_mod.
Qed.
(** With a hash that is always 5, a wrong signature can be made to pass: the hypotheses of the soundness theorem can be met. *)
Example C109_sound_example :
  let p := mkCproof 8 (B "secret") (point_text tiny_curve (res 101 41)) (B "ks") (Some (mkDleq (scalar_text tiny_curve 5) (scalar_text tiny_curve 9) (scalar_text tiny_curve 33))) in
  verify_proof tiny_curve demo_to (fun _ => be_bytes 32 5) p (Some (smul tiny_curve 7 (cv_gen tiny_curve))) = Ok true /\ read_point tiny_curve (cp_C p) = Some (res 101 41) /\ res 101 41 <> smul tiny_curve 7 (res 101 20).
Proof. split; [vm_compute; reflexivity|]. split; [|intro H; apply (f_equal (fun x : residue 101 => proj1_sig x)) in H; vm_compute in H; discriminate]. apply read_point_text; [exact tiny_lawful|]. intro H. apply (f_equal (fun x : residue 101 => proj1_sig x)) in H. vm_compute in H. discriminate. Qed.

(** Reading a mint's signatures crashes only if it sends more of them than were asked for. *)
Theorem C109_constructs_or_fails c hash_e keys : forall sigs preps, (length sigs <= length preps)%nat -> construct_proofs c hash_e keys preps sigs <> Panic.
Proof.
  induction sigs as [|b sigs IH]; intros preps H; [discriminate|]. cbn [construct_proofs]. destruct (keys (bs_amount b)); [|discriminate]. destruct preps as [|p preps]; [cbn in H; lia|].
  destruct (match bs_dleq b with Some _ => _ | None => false end); [discriminate|]. destruct (unblind_signature c (bs_C b) (pp_r p) c0); [|discriminate]. specialize (IH preps ltac:(cbn in H; lia)).
  destruct (construct_proofs c hash_e keys preps sigs); try discriminate. contradiction.
Qed.
(** Checking a proof gives yes or no, but crashes without a DLEQ; and without a key if it gets that far. *)
Theorem C109_verify_crash c to_curve hash_e q a : verify_proof c to_curve hash_e q a <> Err /\ (verify_proof c to_curve hash_e q a = Panic <->
  cp_dleq q = None \/ a = None /\ exists d e s r, cp_dleq q = Some d /\ parse_dleq c d = Some (e, s, Some r) /\ to_curve (cp_secret q) <> None /\ read_point c (cp_C q) <> None).
Proof.
  unfold verify_proof. destruct (cp_dleq q) as [d|] eqn:D; [|split; [discriminate|]; split; [intros _; left; reflexivity|reflexivity]].
  destruct (parse_dleq c d) as [[[e s] [r|]]|] eqn:PD.
  - unfold blind. destruct (to_curve (cp_secret q)) as [y|] eqn:Y; [destruct (read_point c (cp_C q)) as [cc|] eqn:RC; [destruct a as [a|]|]|].
    + split; [discriminate|]. split; [discriminate|]. intros [Q|[Q _]]; discriminate.
    + split; [discriminate|]. split; [|reflexivity]. intros _. right. split; [reflexivity|]. exists d, e, s, r. repeat split; try assumption; congruence.
    + split; [discriminate|]. split; [discriminate|]. intros [Q|(_ & ? & ? & ? & ? & _ & _ & _ & Q)]; congruence.
    + split; [discriminate|]. split; [discriminate|]. intros [Q|(_ & ? & ? & ? & ? & _ & _ & Q & _)]; congruence.
  - split; [discriminate|]. split; [discriminate|]. intros [Q|(_ & ? & ? & ? & ? & Q1 & Q2 & _)]; [discriminate|]. assert (x = d) by congruence. subst x. congruence.
  - split; [discriminate|]. split; [discriminate|]. intros [Q|(_ & ? & ? & ? & ? & Q1 & Q2 & _)]; [discriminate|]. assert (x = d) by congruence. subst x. congruence.
Qed.
(** What a receiver accepts: all of e, s and r are given in hex, the secret is hashed to a point, C is a point, and e is the hash of the two commitments. *)
Theorem C109_accepted c to_curve hash_e q a : verify_proof c to_curve hash_e q (Some a) = Ok true <->
  exists d eb sb rb y cc, cp_dleq q = Some d /\ hex_decode (dq_e d) = Some eb /\ hex_decode (dq_s d) = Some sb /\ hex_decode (dq_r d) = Some rb /\ rb <> [] /\
    to_curve (cp_secret q) = Some y /\ read_point c (cp_C q) = Some cc /\
    let e := scalar c eb in let s := scalar c sb in let r := scalar c rb in
    let b_ := cv_add c y (smul c r (cv_gen c)) in let c_ := cv_add c cc (smul c r a) in
    hash_e [cv_add c (smul c s (cv_gen c)) (smul c (- e) a); cv_add c (smul c s b_) (smul c (- e) c_); a; c_] = be_bytes 32 (e mod cv_n c).
Proof.
  unfold verify_proof, parse_dleq, read_scalar, blind, verify_dleq, commit1, commit2. split.
  - intro H. destruct (cp_dleq q) as [d|]; [|discriminate]. destruct (hex_decode (dq_e d)) as [eb|] eqn:E1; [|discriminate]. destruct (hex_decode (dq_s d)) as [sb|] eqn:E2; [|discriminate].
    destruct (dq_r d) as [|x t] eqn:R; [discriminate|]. destruct (hex_decode (x :: t)) as [rb|] eqn:E3; [|discriminate]. destruct (to_curve (cp_secret q)) as [y|]; [|discriminate]. destruct (read_point c (cp_C q)) as [cc|]; [|discriminate].
    exists d, eb, sb, rb, y, cc. repeat (split; [solve [reflexivity|exact E1|exact E2|rewrite R; exact E3]|]). split.
    { intros ->. cbn [hex_decode] in E3. destruct t as [|x' t]; [discriminate|]. destruct (hex_val x); [|discriminate]. destruct (hex_val x'); [|discriminate]. destruct (hex_decode t); discriminate. }
    repeat (split; [reflexivity|]). cbv zeta. assert (Q := f_equal (fun o => match o with Ok b => b | _ => false end) H). cbv beta iota in Q. symmetry. destruct (seqb_spec (be_bytes 32 (scalar c eb mod cv_n c)) (hash_e
      [cv_add c (smul c (scalar c sb) (cv_gen c)) (smul c (- scalar c eb) a); cv_add c (smul c (scalar c sb) (cv_add c y (smul c (scalar c rb) (cv_gen c)))) (smul c (- scalar c eb) (cv_add c cc (smul c (scalar c rb) a))); a; cv_add c cc (smul c (scalar c rb) a)])) as [W|W]; [exact W|discriminate].
  - intros (d & eb & sb & rb & y & cc & -> & E1 & E2 & E3 & NE & -> & -> & W). cbv zeta in W. rewrite E1, E2. destruct (dq_r d) as [|x t] eqn:R; [cbn in E3; congruence|]. rewrite E3, W, seqb_refl. reflexivity.
Qed.
Print Assumptions C109_constructed.
Print Assumptions C109_receiver_accepts.
Print Assumptions C109_honest.
Print Assumptions C109_sound.
Print Assumptions C109_sound_receiver.
Print Assumptions C109_blind.
Print Assumptions C109_no_dleq_refuted.
Print Assumptions C109_too_many_refuted.
Print Assumptions C109_linked_refuted.

Print Assumptions C109_accepted.
Print Assumptions C109_constructs_or_fails.
Print Assumptions C109_verify_crash.
