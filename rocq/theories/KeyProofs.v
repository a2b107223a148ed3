(** Lemmas about numbers in bytes, curves as groups, and a small curve of any odd order on which everything can be computed. *)
From Coq Require Import Eqdep_dec.
From Verif Require Import Base EventModel KeyModel.
Import ListNotations.
Local Open Scope Z_scope.

Lemma val_lt c : 0 <= Z.of_N (val c) < 256.
Proof. pose proof (N_ascii_bounded c) as H. unfold val. lia. Qed.
Lemma val_byte n : (n < 256)%N -> val (byte_of n) = n.
Proof. intro H. unfold val, byte_of. apply N_ascii_embedding. exact H. Qed.
Lemma be_val_snoc s c : be_val (s ++ [c]) = 256 * be_val s + Z.of_N (val c).
Proof. unfold be_val. rewrite fold_left_app. reflexivity. Qed.
Lemma be_val_cons c s : be_val (c :: s) = Z.of_N (val c) * 256 ^ Z.of_nat (length s) + be_val s.
Proof.
  revert c. induction s as [|x s IH] using rev_ind; intro c; [cbn; lia|]. rewrite app_comm_cons, !be_val_snoc, IH, app_length. cbn [length]. rewrite Nat2Z.inj_add, Z.pow_add_r by lia. change (256 ^ Z.of_nat 1) with 256. lia.
Qed.
Lemma be_val_range s : 0 <= be_val s < 256 ^ Z.of_nat (length s).
Proof.
  induction s as [|c s IH]; [cbn; lia|]. rewrite be_val_cons. cbn [length]. rewrite Nat2Z.inj_succ, Z.pow_succ_r by lia. pose proof (val_lt c). nia.
Qed.
Lemma be_bytes_length n : forall k, length (be_bytes n k) = n.
Proof. induction n as [|n IH]; intro k; cbn [be_bytes]; [reflexivity|]. rewrite app_length, IH. cbn. lia. Qed.
Lemma be_val_bytes n : forall k, 0 <= k < 256 ^ Z.of_nat n -> be_val (be_bytes n k) = k.
Proof.
  induction n as [|n IH]; intros k H; cbn [be_bytes]; [cbn in *; lia|]. rewrite Nat2Z.inj_succ, Z.pow_succ_r in H by lia. rewrite be_val_snoc, IH by (split; [apply Z.div_pos; lia|apply Z.div_lt_upper_bound; lia]).
  pose proof (Z.mod_pos_bound k 256 ltac:(lia)). rewrite val_byte by lia. rewrite Z2N.id by lia. pose proof (Z.div_mod k 256). lia.
Qed.
Lemma be_bytes_val s : be_bytes (length s) (be_val s) = s.
Proof.
  induction s as [|c s IH] using rev_ind; [reflexivity|]. rewrite app_length. cbn [length]. replace (length s + 1)%nat with (S (length s)) by lia. cbn [be_bytes]. rewrite be_val_snoc. pose proof (val_lt c) as V.
  replace ((256 * be_val s + Z.of_N (val c)) / 256) with (be_val s) by (apply Z.div_unique with (Z.of_N (val c)); lia). replace ((256 * be_val s + Z.of_N (val c)) mod 256) with (Z.of_N (val c)) by (apply Z.mod_unique with (be_val s); lia).
  rewrite IH, N2Z.id. f_equal. f_equal. unfold byte_of, val. apply ascii_N_embedding.
Qed.
Lemma be_val_inj a b : length a = length b -> be_val a = be_val b -> a = b.
Proof. intros L E. rewrite <- (be_bytes_val a), <- (be_bytes_val b), L, E. reflexivity. Qed.
(** Leading zeros *)
Lemma drop_zeros_spec s : exists m, s = repeat (byte_of 0) m ++ drop_zeros s.
Proof.
  induction s as [|c s [m IH]]; [exists 0%nat; reflexivity|]. cbn [drop_zeros]. destruct (N.eqb_spec (val c) 0) as [E|E]; [|exists 0%nat; reflexivity].
  exists (S m). cbn [repeat app]. rewrite <- IH. f_equal. apply val_inj. rewrite E. reflexivity.
Qed.
Lemma hex_app a b : hex_encode (a ++ b) = hex_encode a ++ hex_encode b.
Proof. unfold hex_encode. apply flat_map_app. Qed.
Lemma hex_zeros m : hex_encode (repeat (byte_of 0) m) = repeat "0"%char (2 * m).
Proof. induction m as [|m IH]; [reflexivity|]. replace (2 * S m)%nat with (S (S (2 * m))) by lia. cbn [repeat hex_encode flat_map hex_byte app]. unfold hex_encode in IH. rewrite IH. reflexivity. Qed.
Lemma hex_len s : length (hex_encode s) = (2 * length s)%nat.
Proof. induction s as [|c s IH]; [reflexivity|]. cbn [hex_encode flat_map hex_byte app length]. unfold hex_encode in IH. rewrite IH. lia. Qed.
Lemma pad_hex s : length s = 32%nat -> pad64 (hex_encode (drop_zeros s)) = hex_encode s.
Proof.
  intro L. destruct (drop_zeros_spec s) as [m E]. rewrite E at 2. rewrite hex_app, hex_zeros. unfold pad64. rewrite hex_len. f_equal. f_equal. assert (LS : length (repeat (byte_of 0) m ++ drop_zeros s) = 32%nat) by (rewrite <- E; exact L).
  rewrite app_length, repeat_length in LS. lia.
Qed.
(** The order of texts of the same length is the order of the numbers. *)
Lemma scmp_val a : forall b, length a = length b -> scmp a b = Z.compare (be_val a) (be_val b).
Proof.
  induction a as [|x a IH]; intros [|y b] L; try discriminate; [reflexivity|]. cbn [scmp]. injection L as L. rewrite !be_val_cons, L. rewrite IH by exact L. pose proof (be_val_range a) as RA. pose proof (be_val_range b) as RB. rewrite L in RA.
  destruct (N.compare_spec (val x) (val y)) as [E|E|E].
  - rewrite E. destruct (Z.compare_spec (be_val a) (be_val b)) as [Q|Q|Q]; symmetry; [apply Z.compare_eq_iff; lia|apply Z.compare_lt_iff; lia|apply Z.compare_gt_iff; lia].
  - symmetry. apply Z.compare_lt_iff. nia.
  - symmetry. apply Z.compare_gt_iff. nia.
Qed.
Lemma digit_cmp x y : (x < 16)%N -> (y < 16)%N -> N.compare (val (hex_digit x)) (val (hex_digit y)) = N.compare x y.
Proof.
  intros X Y. assert (V : forall n, (n < 16)%N -> val (hex_digit n) = if (n <? 10)%N then (48 + n)%N else (87 + n)%N). { intros n H. unfold hex_digit. destruct (N.ltb_spec n 10); apply val_byte; lia. }
  rewrite !V by assumption. destruct (N.ltb_spec x 10), (N.ltb_spec y 10), (N.compare_spec x y); try lia; match goal with |- N.compare ?a ?b = _ => destruct (N.compare_spec a b); try lia; reflexivity end.
Qed.
Lemma scmp_hex a : forall b, length a = length b -> scmp (hex_encode a) (hex_encode b) = scmp a b.
Proof.
  induction a as [|x a IH]; intros [|y b] L; try discriminate; [reflexivity|]. injection L as L. cbn [hex_encode flat_map hex_byte app scmp]. unfold hex_encode in IH. rewrite IH by exact L. pose proof (val_lt x). pose proof (val_lt y).
  assert (D : (val x / 16 < 16 /\ val y / 16 < 16)%N) by (split; apply N.div_lt_upper_bound; lia). assert (M : (val x mod 16 < 16 /\ val y mod 16 < 16)%N) by (split; apply N.mod_lt; lia). rewrite !digit_cmp by tauto.
  pose proof (N.div_mod (val x) 16) as EX. pose proof (N.div_mod (val y) 16) as EY.
  destruct (N.compare_spec (val x / 16) (val y / 16)) as [E|E|E]; [destruct (N.compare_spec (val x mod 16) (val y mod 16)) as [F|F|F]|..]; destruct (N.compare_spec (val x) (val y)) as [G|G|G]; try reflexivity; exfalso; try lia; rewrite ?G in *; lia.
Qed.

(** ** Curves as groups *)
Record lawful_curve (c : curve) : Prop := {
  g_assoc : forall p q r, cv_add c p (cv_add c q r) = cv_add c (cv_add c p q) r;
  g_comm : forall p q, cv_add c p q = cv_add c q p;
  g_zero : forall p, cv_add c (cv_zero c) p = p;
  g_neg : forall p, cv_add c p (cv_neg c p) = cv_zero c;
  g_n : 1 < cv_n c <= 256 ^ 32;
  g_order : forall p, nmul c (Z.to_nat (cv_n c)) p = cv_zero c;
  g_gen : forall k, smul c k (cv_gen c) = cv_zero c -> k mod cv_n c = 0;
  g_x_neg : forall p, cv_x c (cv_neg c p) = cv_x c p;
  g_x_len : forall p, length (cv_x c p) = 32%nat;
  g_x_zero : cv_x c (cv_zero c) = repeat (byte_of 0) 32;
  g_lift : forall p, p <> cv_zero c -> cv_lift c (cv_x c p) = Some (if cv_even c p then p else cv_neg c p);
  g_even : forall p, p <> cv_zero c -> cv_even c (cv_neg c p) = negb (cv_even c p);
  g_is_zero : forall p, cv_is_zero c p = true <-> p = cv_zero c;
  g_x_field : forall p, be_val (cv_x c p) < secp_p;
  g_no_zero_x : cv_lift c (repeat (byte_of 0) 32) = None;
  g_lift_some : forall x p, cv_lift c x = Some p -> p <> cv_zero c /\ cv_even c p = true /\ cv_x c p = x
}.
Section Group.
Context (c : curve) (L : lawful_curve c).
Notation "p + q" := (cv_add c p q). Notation O := (cv_zero c).
Lemma zero_r p : p + O = p. Proof. rewrite (g_comm c L). apply (g_zero c L). Qed.
Lemma cancel p q r : p + q = p + r -> q = r.
Proof. intro H. rewrite <- (g_zero c L q), <- (g_zero c L r), <- (g_neg c L p), (g_comm c L p), <- !(g_assoc c L), H. reflexivity. Qed.
Lemma neg_unique p q : p + q = O -> q = cv_neg c p.
Proof. intro H. apply (cancel p). rewrite H, (g_neg c L). reflexivity. Qed.
Lemma neg_zero : cv_neg c O = O.
Proof. symmetry. apply neg_unique. apply (g_zero c L). Qed.
Lemma neg_neg p : cv_neg c (cv_neg c p) = p.
Proof. symmetry. apply neg_unique. rewrite (g_comm c L). apply (g_neg c L). Qed.
Lemma swap4 p q r s : (p + q) + (r + s) = (p + r) + (q + s).
Proof. rewrite <- !(g_assoc c L). f_equal. rewrite !(g_assoc c L). f_equal. apply (g_comm c L). Qed.
Lemma neg_add p q : cv_neg c (p + q) = cv_neg c p + cv_neg c q.
Proof. symmetry. apply neg_unique. rewrite swap4, !(g_neg c L). apply (g_zero c L). Qed.
Lemma nmul_plus j k p : nmul c (j + k) p = nmul c j p + nmul c k p.
Proof. induction j as [|j IH]; cbn [nmul plus]; [rewrite (g_zero c L); reflexivity|]. rewrite IH. apply (g_assoc c L). Qed.
Lemma nmul_zero k : nmul c k O = O.
Proof. induction k as [|k IH]; cbn [nmul]; [reflexivity|]. rewrite IH. apply (g_zero c L). Qed.
Lemma nmul_mul j k p : nmul c (j * k) p = nmul c j (nmul c k p).
Proof. induction j as [|j IH]; cbn [nmul mult]; [reflexivity|]. rewrite nmul_plus, IH. reflexivity. Qed.
Lemma nmul_neg k p : nmul c k (cv_neg c p) = cv_neg c (nmul c k p).
Proof. induction k as [|k IH]; cbn [nmul]; [symmetry; apply neg_zero|]. rewrite IH, neg_add. reflexivity. Qed.
Lemma nmul_add_point k p q : nmul c k (p + q) = nmul c k p + nmul c k q.
Proof. induction k as [|k IH]; cbn [nmul]; [symmetry; apply (g_zero c L)|]. rewrite IH. apply swap4. Qed.
(** A scalar counts modulo the order. *)
Lemma nmul_smul k p : 0 <= k -> nmul c (Z.to_nat k) p = smul c k p.
Proof.
  intro H. unfold smul. pose proof (g_n c L) as N. pose proof (Z.mod_pos_bound k (cv_n c) ltac:(lia)) as M. pose proof (Z.div_pos k (cv_n c) H ltac:(lia)) as D. rewrite (Z.div_mod k (cv_n c)) at 1 by lia.
  rewrite Z2Nat.inj_add, Z2Nat.inj_mul, nmul_plus, Nat.mul_comm, nmul_mul by nia. rewrite (g_order c L), nmul_zero, (g_zero c L). reflexivity.
Qed.
Lemma smul_mod k p : smul c (k mod cv_n c) p = smul c k p.
Proof. unfold smul. rewrite Z.mod_mod by (pose proof (g_n c L); lia). reflexivity. Qed.
Lemma smul_eq j k p : j mod cv_n c = k mod cv_n c -> smul c j p = smul c k p.
Proof. unfold smul. intros ->. reflexivity. Qed.
Lemma smul_add j k p : smul c (j + k) p = smul c j p + smul c k p.
Proof.
  pose proof (g_n c L) as N. rewrite <- (smul_mod j), <- (smul_mod k). rewrite <- (smul_eq (j mod cv_n c + k mod cv_n c) (j + k)) by (rewrite <- Zplus_mod; reflexivity).
  pose proof (Z.mod_pos_bound j (cv_n c) ltac:(lia)). pose proof (Z.mod_pos_bound k (cv_n c) ltac:(lia)). rewrite <- !nmul_smul by lia. rewrite Z2Nat.inj_add by lia. apply nmul_plus.
Qed.
Lemma smul_mul j k p : smul c (j * k) p = smul c j (smul c k p).
Proof.
  pose proof (g_n c L) as N. rewrite <- (smul_mod j), <- (smul_mod k). rewrite <- (smul_eq (j mod cv_n c * (k mod cv_n c)) (j * k)) by (rewrite <- Zmult_mod; reflexivity).
  pose proof (Z.mod_pos_bound j (cv_n c) ltac:(lia)). pose proof (Z.mod_pos_bound k (cv_n c) ltac:(lia)). rewrite <- !nmul_smul by nia. rewrite Z2Nat.inj_mul by lia. apply nmul_mul.
Qed.
Lemma smul_neg_point k p : smul c k (cv_neg c p) = cv_neg c (smul c k p).
Proof. apply nmul_neg. Qed.
Lemma smul_add_point k p q : smul c k (p + q) = smul c k p + smul c k q.
Proof. apply nmul_add_point. Qed.
Lemma smul_0 p : smul c 0 p = O.
Proof. unfold smul. rewrite Z.mod_0_l by (pose proof (g_n c L); lia). reflexivity. Qed.
Lemma smul_1 p : smul c 1 p = p.
Proof. unfold smul. rewrite Z.mod_1_l by (pose proof (g_n c L); lia). apply zero_r. Qed.
Lemma smul_zero k : smul c k O = O.
Proof. apply nmul_zero. Qed.
Lemma smul_opp k p : smul c (- k) p = cv_neg c (smul c k p).
Proof. apply neg_unique. rewrite <- smul_add. rewrite Z.add_opp_diag_r. apply smul_0. Qed.
End Group.

(** ** A curve on which everything can be computed: the numbers below n. The coordinate of p is the smaller of p and n - p. *)
Section Toy.
Variable n : Z.
Definition residue := { k : Z | (k mod n =? k) = true }.
Definition res (k : Z) : residue := exist _ (k mod n) (proj2 (Z.eqb_eq _ _) (Zmod_mod k n)).
Lemma res_eq (p q : residue) : proj1_sig p = proj1_sig q -> p = q.
Proof. destruct p as [a A], q as [b B']. cbn. intros ->. f_equal. apply UIP_dec. decide equality. Qed.
Definition toy_curve : curve := mkCurve residue (fun p q => res (proj1_sig p + proj1_sig q)) (fun p => res (- proj1_sig p)) (res 0) (res 1) n
  (fun p => be_bytes 32 (Z.min (proj1_sig p) (n - proj1_sig p))) (fun p => proj1_sig p <=? n / 2) (fun x => let v := be_val x in if Nat.eqb (length x) 32 && (0 <? v) && (v <=? n / 2) then Some (res v) else None) (fun p => proj1_sig p =? 0).
Hypothesis big : 1 < n <= 256 ^ 32.
Hypothesis field : n <= secp_p.
Hypothesis odd : n mod 2 = 1.
Lemma residue_range (p : residue) : 0 <= proj1_sig p < n.
Proof. destruct p as [k K]. pose proof (proj1 (Z.eqb_eq _ _) K) as Q. cbn [proj1_sig]. rewrite <- Q. apply Z.mod_pos_bound. lia. Qed.
Lemma residue_mod (p : residue) : proj1_sig p mod n = proj1_sig p.
Proof. destruct p as [k K]. exact (proj1 (Z.eqb_eq _ _) K). Qed.
Lemma toy_nmul k p : proj1_sig (nmul toy_curve k p) = (Z.of_nat k * proj1_sig p) mod n.
Proof.
  induction k as [|k IH]; [reflexivity|]. cbn [nmul]. cbn [toy_curve cv_add res proj1_sig] in *. rewrite IH. rewrite Zplus_mod_idemp_r. f_equal. lia.
Qed.
Lemma toy_smul k p : proj1_sig (smul toy_curve k p) = (k * proj1_sig p) mod n.
Proof. unfold smul. rewrite toy_nmul. cbn [toy_curve cv_n]. pose proof (Z.mod_pos_bound k n ltac:(lia)). rewrite Z2Nat.id by lia. apply Zmult_mod_idemp_l. Qed.
Lemma toy_neg p : proj1_sig (cv_neg toy_curve p) = if (proj1_sig p =? 0) then 0 else n - proj1_sig p.
Proof.
  cbn [toy_curve cv_neg res proj1_sig]. pose proof (residue_range p) as R. destruct (Z.eqb_spec (proj1_sig p) 0) as [E|E]; [rewrite E; apply Z.mod_0_l; lia|]. symmetry. apply Z.mod_unique with (-1); lia.
Qed.
Lemma half : n = 2 * (n / 2) + 1.
Proof. pose proof (Z.div_mod n 2). lia. Qed.
Theorem toy_curve_lawful : lawful_curve toy_curve.
Proof.
  pose proof half as HF. constructor.
  - intros p q r. apply res_eq. cbn [toy_curve cv_add res proj1_sig]. rewrite Zplus_mod_idemp_r, Zplus_mod_idemp_l. f_equal. lia.
  - intros p q. apply res_eq. cbn [toy_curve cv_add res proj1_sig]. f_equal. lia.
  - intro p. apply res_eq. cbn [toy_curve cv_add cv_zero res proj1_sig]. rewrite Zplus_mod_idemp_l. apply residue_mod.
  - intro p. apply res_eq. cbn [toy_curve cv_add cv_neg cv_zero res proj1_sig]. rewrite Zplus_mod_idemp_r. f_equal. lia.
  - exact big.
  - intro p. apply res_eq. rewrite toy_nmul. cbn [toy_curve cv_n cv_zero res proj1_sig]. rewrite Z2Nat.id by lia. rewrite Z.mul_comm, Z_mod_mult. symmetry. apply Z.mod_0_l. lia.
  - intros k H. apply (f_equal (fun p : residue => proj1_sig p)) in H. rewrite toy_smul in H. cbn [toy_curve cv_n cv_gen cv_zero res proj1_sig] in *. rewrite Zmult_mod_idemp_r, Z.mul_1_r, Z.mod_0_l in H by lia. exact H.
  - intro p. pose proof (toy_neg p) as NP. pose proof (residue_range p) as R. cbn [toy_curve cv_x] in *. rewrite NP. destruct (Z.eqb_spec (proj1_sig p) 0) as [E|E]; [rewrite E; f_equal|f_equal; lia].
  - intro p. apply be_bytes_length.
  - cbn [toy_curve cv_x cv_zero res proj1_sig]. rewrite Z.mod_0_l by lia. rewrite Z.min_l by lia. reflexivity.
  - intros p NZ. pose proof (residue_range p) as R. assert (E : proj1_sig p <> 0). { intro Q. apply NZ. apply res_eq. rewrite Q. cbn [toy_curve cv_zero res proj1_sig]. symmetry. apply Z.mod_0_l. lia. }
    pose proof (toy_neg p) as NP. cbn [toy_curve cv_lift cv_x cv_even cv_neg cv_P] in *. rewrite be_bytes_length, be_val_bytes by (change (256 ^ Z.of_nat 32) with (256 ^ 32); lia). cbn [Nat.eqb andb].
    destruct (Z.leb_spec (proj1_sig p) (n / 2)) as [H|H].
    + rewrite Z.min_l by lia. replace ((0 <? proj1_sig p) && (proj1_sig p <=? n / 2)) with true by (symmetry; apply andb_true_iff; split; [apply Z.ltb_lt|apply Z.leb_le]; lia). f_equal. apply res_eq. cbn [res proj1_sig]. apply residue_mod.
    + rewrite Z.min_r by lia. replace ((0 <? n - proj1_sig p) && (n - proj1_sig p <=? n / 2)) with true by (symmetry; apply andb_true_iff; split; [apply Z.ltb_lt|apply Z.leb_le]; lia). f_equal. apply res_eq. cbn [res proj1_sig].
      replace (- proj1_sig p) with (n - proj1_sig p + (-1) * n) by lia. rewrite Z_mod_plus_full. reflexivity.
  - intros p NZ. pose proof (residue_range p) as R. assert (E : proj1_sig p <> 0). { intro Q. apply NZ. apply res_eq. rewrite Q. cbn [toy_curve cv_zero res proj1_sig]. symmetry. apply Z.mod_0_l. lia. }
    pose proof (toy_neg p) as NP. destruct (Z.eqb_spec (proj1_sig p) 0) as [Q|Q]; [contradiction|]. cbn [toy_curve cv_even] in *. rewrite NP. destruct (Z.leb_spec (n - proj1_sig p) (n / 2)), (Z.leb_spec (proj1_sig p) (n / 2)); try reflexivity; lia.
  - intro p. cbn [toy_curve cv_is_zero cv_zero]. rewrite Z.eqb_eq. split; [intro Q; apply res_eq; rewrite Q; cbn [res proj1_sig]; symmetry; apply Z.mod_0_l; lia|intros ->; cbn [res proj1_sig]; apply Z.mod_0_l; lia].
  - intro p. pose proof (residue_range p). cbn [toy_curve cv_x]. rewrite be_val_bytes; [lia|]. change (256 ^ Z.of_nat 32) with (256 ^ 32). lia.
  - reflexivity.
  - intros x p H. cbn [toy_curve cv_lift cv_zero cv_even cv_x cv_P] in *. destruct (Nat.eqb_spec (length x) 32) as [LX|LX]; cbn [andb] in H; [|discriminate]. destruct (Z.ltb_spec 0 (be_val x)) as [G|G]; cbn [andb] in H; [|discriminate]. destruct (Z.leb_spec (be_val x) (n / 2)) as [K|K]; [|discriminate].
    assert (E : p = res (be_val x)) by congruence. assert (V : proj1_sig p = be_val x) by (rewrite E; cbn [res proj1_sig]; apply Z.mod_small; lia). split; [|split].
    + intro Q. rewrite Q in V. cbn [res proj1_sig] in V. rewrite Z.mod_0_l in V by lia. lia.
    + rewrite V. apply Z.leb_le. exact K.
    + rewrite V, Z.min_l by lia. rewrite <- LX. apply be_bytes_val.
Qed.
End Toy.
