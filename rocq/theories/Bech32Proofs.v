(** bech32: checksum algebra, text round trip, error detection, bit regrouping. *)
From Verif Require Import Base JsonSpec Bech32Model.
Local Open Scope N_scope.

(** ** Linearity *)
Lemma land_lxor_l a b m : N.land (N.lxor a b) m = N.lxor (N.land a m) (N.land b m).
Proof. apply N.bits_inj. intro n. rewrite N.lxor_spec, !N.land_spec, N.lxor_spec. destruct (N.testbit a n), (N.testbit b n), (N.testbit m n); reflexivity. Qed.

Lemma pick_lxor x y g : pick (xorb x y) g = N.lxor (pick x g) (pick y g).
Proof. destruct x, y; cbn [xorb pick]; rewrite ?N.lxor_nilpotent, ?N.lxor_0_r, ?N.lxor_0_l; reflexivity. Qed.

Lemma lxor4 a b c d : N.lxor (N.lxor a b) (N.lxor c d) = N.lxor (N.lxor a c) (N.lxor b d).
Proof.
  apply N.bits_inj. intro n. rewrite !N.lxor_spec. destruct (N.testbit a n), (N.testbit b n), (N.testbit c n), (N.testbit d n); reflexivity.
Qed.

Lemma gens_lxor a b : gens (N.lxor a b) = N.lxor (gens a) (gens b).
Proof.
  unfold gens. rewrite !N.lxor_spec, !pick_lxor.
  rewrite (lxor4 (pick (N.testbit a 3) (gen 3))).
  rewrite (lxor4 (pick (N.testbit a 2) (gen 2))). rewrite (lxor4 (pick (N.testbit a 1) (gen 1))).
  rewrite (lxor4 (pick (N.testbit a 0) (gen 0))). reflexivity.
Qed.

Lemma pstep_lxor c d v w : pstep (N.lxor c d) (N.lxor v w) = N.lxor (pstep c v) (pstep d w).
Proof.
  unfold pstep. rewrite land_lxor_l, N.shiftl_lxor, N.shiftr_lxor, gens_lxor.
  rewrite (lxor4 _ _ v w), lxor4. reflexivity.
Qed.

Lemma feed_app c a b : feed c (a ++ b) = feed (feed c a) b.
Proof. apply fold_left_app. Qed.

Lemma feed_lxor vs : forall c d, feed (N.lxor c d) vs = N.lxor (feed c vs) (feed d (repeat 0 (length vs))).
Proof.
  induction vs as [|v vs IH]; intros c d; [reflexivity|]. cbn [feed fold_left length repeat].
  change (fold_left pstep vs ?x) with (feed x vs). change (fold_left pstep (repeat 0 (length vs)) ?x) with (feed x (repeat 0 (length vs))).
  rewrite <- IH. f_equal. rewrite <- pstep_lxor, N.lxor_0_r. reflexivity.
Qed.

(** ** Ranges *)
Lemma lt_pow2_testbit a n : (forall m, n <= m -> N.testbit a m = false) -> a < 2 ^ n.
Proof.
  intro H. destruct (N.eq_0_gt_0_cases a) as [->|P]; [destruct (N.eq_0_gt_0_cases (2 ^ n)) as [E|E]; [apply N.pow_nonzero in E; [contradiction|lia]|exact E]|].
  destruct (N.lt_ge_cases a (2 ^ n)) as [L|L]; [exact L|]. exfalso.
  pose proof (N.bit_log2 a ltac:(lia)) as T. rewrite H in T; [discriminate|]. rewrite <- (N.log2_pow2 n) by lia. apply N.log2_le_mono, L.
Qed.
Lemma testbit_above a n m : a < 2 ^ n -> n <= m -> N.testbit a m = false.
Proof.
  intros H L. destruct (N.eq_dec a 0) as [->|N]; [apply N.bits_0|]. apply N.bits_above_log2.
  apply N.lt_le_trans with n; [|exact L]. apply N.log2_lt_pow2; lia.
Qed.
Lemma lxor_lt a b n : a < 2 ^ n -> b < 2 ^ n -> N.lxor a b < 2 ^ n.
Proof. intros Ha Hb. apply lt_pow2_testbit. intros m L. rewrite N.lxor_spec, (testbit_above a n m), (testbit_above b n m) by assumption. reflexivity. Qed.

Lemma gens_lt b : gens b < 2 ^ 30.
Proof. unfold gens. repeat apply lxor_lt; match goal with |- pick ?x _ < _ => destruct x; reflexivity end. Qed.
Lemma pstep_lt c v : v < 32 -> pstep c v < 2 ^ 30.
Proof.
  intro H. unfold pstep. apply lxor_lt; [|apply gens_lt]. apply lxor_lt.
  - rewrite N.shiftl_mul_pow2. change 0x1ffffff with (N.ones 25). rewrite N.land_ones.
    assert (c mod 2 ^ 25 < 2 ^ 25) by (apply N.mod_lt; discriminate). change (2 ^ 25) with 33554432 in *. change (2 ^ 5) with 32. change (2 ^ 30) with 1073741824. lia.
  - change (2 ^ 30) with 1073741824. lia.
Qed.
Lemma feed_lt vs : Forall (fun v => v < 32) vs -> forall c, c < 2 ^ 30 -> feed c vs < 2 ^ 30.
Proof. induction 1 as [|v vs Hv H IH]; intros c Hc; [exact Hc|]. cbn [feed fold_left]. apply IH. apply pstep_lt, Hv. Qed.

(** ** Checksum digits *)
Lemma pstep_small c v : c < 2 ^ 25 -> v < 32 -> pstep c v = 32 * c + v.
Proof.
  intros Hc Hv. unfold pstep.
  assert (E : N.shiftr c 25 = 0) by (rewrite N.shiftr_div_pow2; apply N.div_small; exact Hc). rewrite E. change (gens 0) with 0. rewrite N.lxor_0_r.
  change 0x1ffffff with (N.ones 25). rewrite N.land_ones, N.mod_small by exact Hc. rewrite <- N.add_nocarry_lxor.
  - rewrite N.shiftl_mul_pow2. change (2 ^ 5) with 32. lia.
  - apply N.bits_inj. intro n. rewrite N.land_spec, N.bits_0. destruct (N.lt_ge_cases n 5) as [L|L].
    + rewrite N.shiftl_spec_low by exact L. reflexivity.
    + rewrite (testbit_above v 5 n); [apply andb_false_r|exact Hv|exact L].
Qed.

Lemma feed_digits p : p < 2 ^ 30 -> feed 0 (map (fun i => N.land (N.shiftr p (5 * i)) 31) [5; 4; 3; 2; 1; 0]) = p.
Proof.
  intro H. change (2 ^ 30) with 1073741824 in H. cbn [map feed fold_left].
  change 31 with (N.ones 5). rewrite !N.land_ones, !N.shiftr_div_pow2.
  change (2 ^ (5 * 5)) with 33554432. change (2 ^ (5 * 4)) with 1048576. change (2 ^ (5 * 3)) with 32768. change (2 ^ (5 * 2)) with 1024.
  change (2 ^ (5 * 1)) with 32. change (2 ^ (5 * 0)) with 1. change (2 ^ 5) with 32. change (2 ^ 25) with 33554432 in *.
  assert (Q : forall x, x / 32 * 32 + x mod 32 = x) by (intro x; pose proof (N.div_mod x 32 ltac:(lia)); lia).
  assert (M : forall x, x mod 32 < 32) by (intro; apply N.mod_lt; lia).
  assert (D1 : p / 33554432 = p / 1048576 / 32) by (rewrite N.div_div by lia; reflexivity).
  assert (D2 : p / 1048576 = p / 32768 / 32) by (rewrite N.div_div by lia; reflexivity).
  assert (D3 : p / 32768 = p / 1024 / 32) by (rewrite N.div_div by lia; reflexivity).
  assert (D4 : p / 1024 = p / 32 / 32) by (rewrite N.div_div by lia; reflexivity).
  assert (D5 : p / 1 = p) by apply N.div_1_r.
  assert (L5 : p / 33554432 < 32) by (apply N.div_lt_upper_bound; lia).
  assert (E5 : p / 33554432 mod 32 = p / 33554432) by (apply N.mod_small, L5).
  pose proof (Q (p / 1048576)) as Q4. pose proof (Q (p / 32768)) as Q3. pose proof (Q (p / 1024)) as Q2. pose proof (Q (p / 32)) as Q1. pose proof (Q p) as Q0.
  rewrite <- D1 in Q4. rewrite <- D2 in Q3. rewrite <- D3 in Q2. rewrite <- D4 in Q1.
  assert (L1 : p / 32 < 33554432) by (apply N.div_lt_upper_bound; lia).
  assert (L2 : p / 1024 < 33554432) by (apply N.div_lt_upper_bound; lia).
  assert (L3 : p / 32768 < 33554432) by (apply N.div_lt_upper_bound; lia).
  assert (L4 : p / 1048576 < 33554432) by (apply N.div_lt_upper_bound; lia).
  rewrite E5, D5. rewrite (pstep_small 0) by (reflexivity || exact L5).
  replace (32 * 0 + p / 33554432) with (p / 33554432) by lia.
  rewrite (pstep_small (p / 33554432)); [|eapply N.lt_trans; [exact L5|reflexivity]|apply M]. replace (32 * (p / 33554432) + p / 1048576 mod 32) with (p / 1048576) by (rewrite <- Q4 at 1; rewrite N.mul_comm; reflexivity).
  rewrite (pstep_small (p / 1048576)); [|exact L4|apply M]. replace (32 * (p / 1048576) + p / 32768 mod 32) with (p / 32768) by (rewrite <- Q3 at 1; rewrite N.mul_comm; reflexivity).
  rewrite (pstep_small (p / 32768)); [|exact L3|apply M]. replace (32 * (p / 32768) + p / 1024 mod 32) with (p / 1024) by (rewrite <- Q2 at 1; rewrite N.mul_comm; reflexivity).
  rewrite (pstep_small (p / 1024)); [|exact L2|apply M]. replace (32 * (p / 1024) + p / 32 mod 32) with (p / 32) by (rewrite <- Q1 at 1; rewrite N.mul_comm; reflexivity).
  rewrite (pstep_small (p / 32)); [|exact L1|apply M]. rewrite <- Q0 at 3. rewrite N.mul_comm. reflexivity.
Qed.

Lemma expand_lt hrp : Forall (fun v => v < 32) (expand hrp).
Proof.
  unfold expand. apply Forall_app; split; [|apply Forall_app; split].
  - apply Forall_forall. intros x Hx. apply in_map_iff in Hx as (c & <- & _). pose proof (val_lt c). rewrite N.shiftr_div_pow2. change (2 ^ 5) with 32. apply N.div_lt_upper_bound; lia.
  - repeat constructor.
  - apply Forall_forall. intros x Hx. apply in_map_iff in Hx as (c & <- & _). change 31 with (N.ones 5). rewrite N.land_ones. apply N.mod_lt. discriminate.
Qed.

Lemma checksum_valid hrp data : Forall (fun v => v < 32) data -> polymod hrp (data ++ checksum hrp data) = 1.
Proof.
  intro H. unfold polymod, checksum. set (p := N.lxor (polymod hrp (data ++ six)) 1).
  assert (Hp : p < 2 ^ 30).
  { unfold p. apply lxor_lt; [|reflexivity]. apply feed_lt; [|reflexivity]. apply Forall_app; split; [apply expand_lt|].
    apply Forall_app; split; [exact H|repeat constructor]. }
  rewrite app_assoc, feed_app. set (c := feed 1 (expand hrp ++ data)).
  set (ds := map (fun i => N.land (N.shiftr p (5 * i)) 31) [5; 4; 3; 2; 1; 0]).
  replace (feed c ds) with (feed (N.lxor 0 c) ds) by (rewrite N.lxor_0_l; reflexivity).
  rewrite feed_lxor. unfold ds at 1. rewrite feed_digits by exact Hp.
  change (repeat 0 (length ds)) with six. unfold p, polymod. rewrite app_assoc, feed_app. fold c.
  apply N.bits_inj. intro n. rewrite !N.lxor_spec. destruct (N.testbit (feed c six) n), (N.testbit 1 n); reflexivity.
Qed.

Lemma checksum_lt hrp data : Forall (fun v => v < 32) (checksum hrp data).
Proof.
  unfold checksum. apply Forall_forall. intros x Hx. apply in_map_iff in Hx as (i & <- & _).
  change 31 with (N.ones 5). rewrite N.land_ones. apply N.mod_lt. discriminate.
Qed.
Lemma checksum_length hrp data : length (checksum hrp data) = 6%nat.
Proof. reflexivity. Qed.

(** ** Characters *)
Lemma below32 (P : N -> bool) : forallb P (map N.of_nat (seq 0 32)) = true -> forall v, v < 32 -> P v = true.
Proof.
  intros H v Hv. rewrite forallb_forall in H. apply H. apply in_map_iff. exists (N.to_nat v). split; [lia|]. apply in_seq. lia.
Qed.
Lemma value_char v : v < 32 -> value_of (char_of v) = Some v.
Proof.
  intro H. assert (E : (match value_of (char_of v) with Some w => w =? v | None => false end) = true).
  { revert v H. apply (below32 (fun v => match value_of (char_of v) with Some w => w =? v | None => false end)). vm_compute. reflexivity. }
  destruct (value_of (char_of v)) as [w|]; [|discriminate]. f_equal. apply N.eqb_eq, E.
Qed.
Lemma char_facts v : v < 32 -> (33 <=? val (char_of v)) && (val (char_of v) <=? 126) && negb (ceqb (char_of v) "1"%char) && ceqb (lower (char_of v)) (char_of v) && negb (is_upper_letter (char_of v)) = true.
Proof. revert v. apply (below32 (fun v => (33 <=? val (char_of v)) && (val (char_of v) <=? 126) && negb (ceqb (char_of v) "1"%char) && ceqb (lower (char_of v)) (char_of v) && negb (is_upper_letter (char_of v)))). vm_compute. reflexivity. Qed.
Lemma value_of_inv c v : value_of c = Some v -> v < 32 /\ c = char_of v.
Proof.
  assert (G : forall c, (match value_of c with Some v => (v <? 32) && ceqb c (char_of v) | None => true end) = true) by (apply bytes_forallb; vm_compute; reflexivity).
  intro H. specialize (G c). rewrite H in G. apply andb_true_iff in G as [G1 G2]. split; [lia|].
  destruct (ascii_dec c (char_of v)) as [E|N]; [exact E|]. rewrite ceqb_neq in G2 by exact N. discriminate.
Qed.

Lemma to_values_chars vs : Forall (fun v => v < 32) vs -> to_values (map char_of vs) = Some vs.
Proof. induction 1 as [|v vs Hv H IH]; [reflexivity|]. cbn [map to_values]. rewrite value_char, IH by exact Hv. reflexivity. Qed.
Lemma to_values_inv s vs : to_values s = Some vs -> Forall (fun v => v < 32) vs /\ s = map char_of vs.
Proof.
  revert vs; induction s as [|c s IH]; intros vs H.
  - injection H as <-. split; [constructor|reflexivity].
  - cbn [to_values] in H. destruct (value_of c) as [v|] eqn:E; [|discriminate]. destruct (to_values s) as [ws|] eqn:F; [|discriminate].
    injection H as <-. destruct (IH ws eq_refl) as [I1 I2]. apply value_of_inv in E as [E1 E2]. split; [constructor; assumption|]. cbn [map]. congruence.
Qed.

Lemma split_last_none s : forallb (fun c => negb (ceqb c "1"%char)) s = true -> split_last s = None.
Proof.
  induction s as [|c s IH]; intro H; [reflexivity|]. cbn [forallb] in H. apply andb_true_iff in H as [Hc H]. apply negb_true_iff in Hc.
  cbn [split_last]. rewrite IH by exact H. rewrite Hc. reflexivity.
Qed.
Lemma split_last_app h d : forallb (fun c => negb (ceqb c "1"%char)) d = true -> split_last (h ++ "1"%char :: d) = Some (h, d).
Proof.
  intro H. induction h as [|c h IH]; cbn [app split_last]; [rewrite split_last_none by exact H; reflexivity|]. rewrite IH. reflexivity.
Qed.
Lemma split_last_inv s h d : split_last s = Some (h, d) -> s = h ++ "1"%char :: d /\ forallb (fun c => negb (ceqb c "1"%char)) d = true.
Proof.
  assert (NN : forall s, split_last s = None -> forallb (fun c => negb (ceqb c "1"%char)) s = true).
  { induction s0 as [|c s0 IH]; intro H; [reflexivity|]. cbn [split_last] in H. destruct (split_last s0) as [[? ?]|]; [discriminate|].
    destruct (ceqb c "1"%char) eqn:E; [discriminate|]. cbn [forallb]. rewrite E, IH by reflexivity. reflexivity. }
  revert h d; induction s as [|c s IH]; intros h d H; [discriminate|]. cbn [split_last] in H.
  destruct (split_last s) as [[a b]|] eqn:E.
  - injection H as <- <-. destruct (IH a b eq_refl) as [-> I]. split; [reflexivity|exact I].
  - destruct (ceqb c "1"%char) eqn:F; [|discriminate]. injection H as <- <-.
    split; [|apply NN, E]. cbn [app]. f_equal. destruct (ascii_dec c "1") as [X|X]; [exact X|]. rewrite ceqb_neq in F by exact X. discriminate.
Qed.

Lemma map_lower_chars vs : Forall (fun v => v < 32) vs -> map lower (map char_of vs) = map char_of vs.
Proof.
  induction 1 as [|v vs Hv H IH]; [reflexivity|]. cbn [map]. rewrite IH. f_equal.
  pose proof (char_facts v Hv) as F. apply andb_true_iff in F as [F _]. apply andb_true_iff in F as [_ F].
  destruct (ascii_dec (lower (char_of v)) (char_of v)) as [E|N]; [exact E|]. rewrite ceqb_neq in F by exact N. discriminate.
Qed.
Lemma lower_idem c : lower (lower c) = lower c.
Proof.
  assert (G : forall c, ceqb (lower (lower c)) (lower c) = true) by (apply bytes_forallb; vm_compute; reflexivity).
  specialize (G c). destruct (ascii_dec (lower (lower c)) (lower c)) as [E|N]; [exact E|]. rewrite ceqb_neq in G by exact N. discriminate.
Qed.
Lemma lower_facts c : is_upper_letter (lower c) = false /\ ((33 <=? val c) && (val c <=? 126) = true -> (33 <=? val (lower c)) && (val (lower c) <=? 126) = true).
Proof.
  assert (G : forall c, negb (is_upper_letter (lower c)) && (if (33 <=? val c) && (val c <=? 126) then (33 <=? val (lower c)) && (val (lower c) <=? 126) else true) = true) by (apply bytes_forallb; vm_compute; reflexivity).
  specialize (G c). apply andb_true_iff in G as [G1 G2]. apply negb_true_iff in G1. split; [exact G1|]. intro H. rewrite H in G2. exact G2.
Qed.

Definition printable (s : str) : Prop := Forall (fun c => 33 <= val c <= 126) s.

Lemma encode_decode hrp data : hrp <> [] -> printable hrp -> Forall (fun v => v < 32) data ->
  exists t, encode hrp data = Ok t /\ decode t = Ok (map lower hrp, data).
Proof.
  intros Hn Hp Hd. unfold encode.
  assert (F : forallb (fun b => b <? 32) data = true) by (rewrite forallb_forall; rewrite Forall_forall in Hd; intros x Hx; specialize (Hd x Hx); lia).
  rewrite F. eexists; split; [reflexivity|].
  set (h := map lower hrp). set (vs := data ++ checksum h data).
  replace (map char_of data ++ map char_of (checksum h data)) with (map char_of vs) by (unfold vs; rewrite map_app; reflexivity).
  assert (Hv : Forall (fun v => v < 32) vs) by (apply Forall_app; split; [exact Hd|apply checksum_lt]).
  assert (Lv : length vs = (length data + 6)%nat) by (unfold vs; rewrite app_length, checksum_length; reflexivity).
  assert (CF : forall P, (forall v, v < 32 -> P (char_of v) = true) -> forallb P (map char_of vs) = true).
  { intros P HP. rewrite forallb_forall. intros x Hx. apply in_map_iff in Hx as (v & <- & Hv'). rewrite Forall_forall in Hv. apply HP, Hv, Hv'. }
  unfold decode.
  assert (L8 : Nat.ltb (length (h ++ "1"%char :: map char_of vs)) 8 = false).
  { rewrite app_length. cbn [length]. rewrite map_length, Lv. unfold h. rewrite map_length. destruct hrp; [contradiction|]. cbn [length]. apply Nat.ltb_ge. lia. }
  rewrite L8.
  assert (PR : forallb (fun c => (33 <=? val c) && (val c <=? 126)) (h ++ "1"%char :: map char_of vs) = true).
  { rewrite forallb_app. cbn [forallb]. change ((33 <=? val "1") && (val "1" <=? 126)) with true. cbn [andb]. apply andb_true_iff. split.
    - unfold h. rewrite forallb_forall. intros x Hx. apply in_map_iff in Hx as (c & <- & Hc). apply lower_facts. unfold printable in Hp. rewrite Forall_forall in Hp. specialize (Hp c Hc). lia.
    - apply CF. intros v Hv'. pose proof (char_facts v Hv') as X. repeat (apply andb_true_iff in X as [X ?]). apply andb_true_iff. split; assumption. }
  rewrite PR. cbn [negb].
  assert (UP : existsb is_upper_letter (h ++ "1"%char :: map char_of vs) = false).
  { apply not_true_is_false. intro E. apply existsb_exists in E as (x & Hx & U). apply in_app_or in Hx as [Hx|[<-|Hx]]; [| discriminate U|].
    - apply in_map_iff in Hx as (c & <- & _). destruct (lower_facts c) as [Q _]. congruence.
    - apply in_map_iff in Hx as (v & <- & Hv'). rewrite Forall_forall in Hv. pose proof (char_facts v (Hv v Hv')) as X. apply andb_true_iff in X as [_ X]. rewrite U in X. discriminate. }
  rewrite UP, andb_false_r.
  assert (ML : map lower (h ++ "1"%char :: map char_of vs) = h ++ "1"%char :: map char_of vs).
  { rewrite map_app. cbn [map]. rewrite map_lower_chars by exact Hv. f_equal. unfold h. rewrite map_map. apply map_ext. intro; apply lower_idem. }
  rewrite ML, split_last_app.
  2:{ apply CF. intros v Hv'. pose proof (char_facts v Hv') as X. apply andb_true_iff in X as [X _]. apply andb_true_iff in X as [X _]. apply andb_true_iff in X as [_ X]. exact X. }
  assert (HL : Nat.eqb (length h) 0 = false) by (unfold h; rewrite map_length; destruct hrp; [contradiction|reflexivity]). rewrite HL.
  rewrite map_length. destruct (Nat.ltb_spec (length vs) 6); [lia|]. cbn [orb].
  rewrite to_values_chars by exact Hv. unfold vs at 1. rewrite checksum_valid by exact Hd. cbn [N.eqb Pos.eqb orb].
  rewrite Lv, Nat.add_sub. unfold vs. rewrite firstn_app, firstn_all, Nat.sub_diag. cbn [firstn]. rewrite app_nil_r. reflexivity.
Qed.

(** ** Single substitutions *)
Definition drift (k : nat) (e : N) : N := feed e (repeat 0 k).
Lemma repeat_snoc {A} (x : A) n : repeat x (S n) = repeat x n ++ [x].
Proof. induction n as [|n IH]; [reflexivity|]. cbn [repeat app] in *. rewrite <- IH. reflexivity. Qed.
Lemma drift_S k e : drift (S k) e = pstep (drift k e) 0.
Proof. unfold drift. rewrite repeat_snoc, feed_app. reflexivity. Qed.
Lemma drift_add j k e : drift (j + k) e = drift k (drift j e).
Proof. unfold drift. rewrite repeat_app, feed_app. reflexivity. Qed.

Definition delta : N := N.lxor 1 bech32m.
Fixpoint orbit_ok (n : nat) (c : N) : option N :=
  match n with
  | O => Some c
  | S m => if (c =? 0) || (c =? delta) then None else orbit_ok m (pstep c 0)
  end.
Lemma orbit_ok_spec n : forall c r, orbit_ok n c = Some r -> drift n c = r /\ forall k, (k < n)%nat -> drift k c <> 0 /\ drift k c <> delta.
Proof.
  induction n as [|n IH]; intros c r H.
  - injection H as <-. split; [reflexivity|]. intros k Hk. lia.
  - cbn [orbit_ok] in H. destruct ((c =? 0) || (c =? delta)) eqn:E; [discriminate|]. apply orb_false_iff in E as [E1 E2].
    destruct (IH _ _ H) as [I1 I2]. split; [exact I1|]. intros [|k] Hk.
    + unfold drift. cbn [repeat feed fold_left]. split; [apply N.eqb_neq, E1|apply N.eqb_neq, E2].
    + apply (I2 k). lia.
Qed.
Lemma orbits : forall e, e < 32 -> e <> 0 -> orbit_ok 1023 e = Some e.
Proof.
  intros e H1 H2. assert (E : ((e =? 0) || match orbit_ok 1023 e with Some x => x =? e | None => false end) = true).
  { revert e H1 H2. assert (G : forall e, e < 32 -> ((e =? 0) || match orbit_ok 1023 e with Some x => x =? e | None => false end) = true).
    { apply (below32 (fun e => (e =? 0) || match orbit_ok 1023 e with Some x => x =? e | None => false end)). vm_compute. reflexivity. }
    intros e H1 _. apply G, H1. }
  apply orb_true_iff in E as [E|E]; [apply N.eqb_eq in E; contradiction|]. destruct (orbit_ok 1023 e) as [x|]; [|discriminate]. apply N.eqb_eq in E. congruence.
Qed.
Lemma drift_never k e : e < 32 -> e <> 0 -> drift k e <> 0 /\ drift k e <> delta.
Proof.
  intros H1 H2. destruct (orbit_ok_spec _ _ _ (orbits e H1 H2)) as [P Q].
  assert (R : forall q, drift (1023 * q) e = e).
  { induction q as [|q IH]; [reflexivity|]. replace (1023 * S q)%nat with (1023 * q + 1023)%nat by lia. rewrite drift_add, IH. exact P. }
  rewrite (Nat.div_mod k 1023) by discriminate. rewrite drift_add, R. apply Q. apply Nat.mod_upper_bound. discriminate.
Qed.

Lemma feed_subst c a v w b : feed c (a ++ w :: b) = N.lxor (feed c (a ++ v :: b)) (drift (length b) (N.lxor v w)).
Proof.
  rewrite !feed_app. cbn [feed fold_left]. change (fold_left pstep a c) with (feed c a). change (fold_left pstep b ?x) with (feed x b).
  assert (E : pstep (feed c a) w = N.lxor (pstep (feed c a) v) (N.lxor v w)).
  { unfold pstep. apply N.bits_inj. intro n. rewrite !N.lxor_spec.
    destruct (N.testbit v n), (N.testbit w n), (N.testbit (N.shiftl (N.land (feed c a) 33554431) 5) n), (N.testbit (gens (N.shiftr (feed c a) 25)) n); reflexivity. }
  rewrite E. apply feed_lxor.
Qed.

Definition good (p : N) : bool := (p =? 1) || (p =? bech32m).
Lemma subst_detected hrp a v w b : v < 32 -> w < 32 -> v <> w ->
  good (polymod hrp (a ++ v :: b)) = true -> good (polymod hrp (a ++ w :: b)) = false.
Proof.
  intros Hv Hw Hn H. unfold polymod in *. rewrite app_assoc in *. rewrite (feed_subst 1 (expand hrp ++ a) v w b).
  set (p := feed 1 ((expand hrp ++ a) ++ v :: b)) in *. set (e := N.lxor v w).
  assert (He : e < 32) by (change 32 with (2 ^ 5); apply lxor_lt; assumption).
  assert (Hz : e <> 0) by (intro Z; apply Hn; apply N.lxor_eq, Z).
  destruct (drift_never (length b) e He Hz) as [D1 D2]. set (d := drift (length b) e) in *.
  apply not_true_is_false. intro G. unfold good in *.
  assert (I : forall x y, N.lxor x y = y -> x = 0).
  { intros x y E. assert (N.lxor (N.lxor x y) y = N.lxor y y) by congruence. rewrite N.lxor_assoc, N.lxor_nilpotent, N.lxor_0_r in H0. exact H0. }
  assert (J : forall x y z, N.lxor x y = z -> y = N.lxor x z).
  { intros x y z E. rewrite <- E, <- N.lxor_assoc, N.lxor_nilpotent, N.lxor_0_l. reflexivity. }
  apply orb_true_iff in H as [H|H], G as [G|G]; apply N.eqb_eq in H, G; apply J in G; rewrite H in G.
  - rewrite N.lxor_nilpotent in G. contradiction.
  - apply D2. exact G.
  - apply D2. rewrite G. unfold delta. apply N.lxor_comm.
  - rewrite N.lxor_nilpotent in G. contradiction.
Qed.

(** ** Substitutions in the text *)
Lemma lower_one c : ceqb (lower c) "1"%char = ceqb c "1"%char.
Proof.
  assert (G : forall c, Bool.eqb (ceqb (lower c) "1"%char) (ceqb c "1"%char) = true) by (apply bytes_forallb; vm_compute; reflexivity).
  apply Bool.eqb_prop, G.
Qed.
Definition no_one (s : str) : bool := forallb (fun c => negb (ceqb c "1"%char)) s.
Lemma no_one_lower s : no_one (map lower s) = no_one s.
Proof. induction s as [|c s IH]; [reflexivity|]. cbn [map no_one forallb] in *. unfold no_one in *. cbn [forallb]. rewrite IH, lower_one. reflexivity. Qed.

(** Everything decode checks, as one statement. *)
Lemma decode_ok s h ds : decode s = Ok (h, ds) -> exists d vs, split_last (map lower s) = Some (h, d) /\
  to_values d = Some vs /\ good (polymod h vs) = true /\ ds = firstn (length vs - 6) vs /\ (6 <= length vs)%nat /\ h <> [].
Proof.
  unfold decode. destruct (Nat.ltb (length s) 8); [discriminate|]. destruct (negb _); [discriminate|]. destruct (_ && _); [discriminate|].
  destruct (split_last (map lower s)) as [[h' d]|]; [|discriminate]. destruct (Nat.eqb_spec (length h') 0) as [E|E]; cbn [orb]; [discriminate|].
  destruct (Nat.ltb_spec (length d) 6) as [E6|E6]; [discriminate|]. destruct (to_values d) as [vs|] eqn:EV; [|discriminate].
  destruct ((polymod h' vs =? 1) || (polymod h' vs =? bech32m)) eqn:G; [|discriminate]. intro H. injection H as <- <-.
  exists d, vs. repeat split; auto.
  - apply to_values_inv in EV as [_ ->]. rewrite map_length in E6. exact E6.
  - intros ->. apply E. reflexivity.
Qed.
Lemma decode_not_ok s : (forall h ds, decode s <> Ok (h, ds)) -> decode s = Err.
Proof.
  intro H. destruct (decode s) as [[h ds]| |] eqn:E; [exfalso; eapply H; eauto|reflexivity|]. exfalso. revert E. unfold decode.
  repeat (match goal with |- context [if ?b then _ else _] => destruct b end; try discriminate).
  destruct (split_last (map lower s)) as [[h' d]|]; [|discriminate]. destruct (_ || _); [discriminate|]. destruct (to_values d); [|discriminate].
  destruct (_ || _); discriminate.
Qed.

Lemma split_last_prefix l1 c l2 h d : split_last (l1 ++ c :: l2) = Some (h, d) -> no_one (c :: l2) = true ->
  exists d1, l1 = h ++ "1"%char :: d1 /\ d = d1 ++ c :: l2 /\ no_one d1 = true.
Proof.
  intros H N. destruct (split_last l1) as [[h' d1]|] eqn:E.
  - apply split_last_inv in E as [-> N1]. exists d1.
    replace ((h' ++ "1"%char :: d1) ++ c :: l2) with (h' ++ "1"%char :: (d1 ++ c :: l2)) in H by (rewrite <- app_assoc; reflexivity).
    rewrite split_last_app in H; [injection H as <- <-; repeat split; exact N1|]. rewrite forallb_app, N1. exact N.
  - exfalso. assert (N1 : no_one l1 = true).
    { clear H. induction l1 as [|x l1 IH]; [reflexivity|]. cbn [split_last] in E. destruct (split_last l1) as [[? ?]|]; [discriminate|].
      destruct (ceqb x "1"%char) eqn:F; [discriminate|]. unfold no_one in *. cbn [forallb]. rewrite F, IH; reflexivity. }
    rewrite split_last_none in H; [discriminate|]. rewrite forallb_app. unfold no_one in *. rewrite N1, N. reflexivity.
Qed.

Lemma to_values_app a b vs : to_values (a ++ b) = Some vs -> exists x y, to_values a = Some x /\ to_values b = Some y /\ vs = x ++ y.
Proof.
  revert vs; induction a as [|c a IH]; intros vs H; [exists [], vs; repeat split; exact H|]. cbn [app to_values] in *.
  destruct (value_of c) as [v|]; [|discriminate]. destruct (to_values (a ++ b)) as [w|] eqn:E; [|discriminate]. injection H as <-.
  destruct (IH w eq_refl) as (x & y & -> & -> & ->). exists (v :: x), y. repeat split.
Qed.

Lemma decode_subst s1 c s2 c' r : decode (s1 ++ c :: s2) = Ok r -> no_one (c :: s2) = true ->
  ceqb c' "1"%char = false -> lower c' <> lower c -> decode (s1 ++ c' :: s2) = Err.
Proof.
  destruct r as [h ds]. intros H N N' D. apply decode_not_ok. intros h2 ds2 H2.
  apply decode_ok in H as (d & vs & S1 & V1 & G1 & _). apply decode_ok in H2 as (d' & vs' & S2 & V2 & G2 & _).
  rewrite map_app in S1, S2. cbn [map] in S1, S2.
  apply split_last_prefix in S1 as (d1 & E1 & -> & _); [|change (no_one (map lower (c :: s2)) = true); rewrite no_one_lower; exact N].
  apply split_last_prefix in S2 as (d1' & E1' & -> & ND).
  2:{ change (no_one (map lower (c' :: s2)) = true); rewrite no_one_lower. unfold no_one in *. cbn [forallb] in *. apply andb_true_iff in N as [_ N]. rewrite N', N. reflexivity. }
  assert (X : h2 = h /\ d1' = d1).
  { rewrite E1 in E1'. assert (ND1 : no_one d1 = true \/ True) by auto. 
    pose proof (split_last_app h2 d1' ND) as P2. rewrite <- E1' in P2. apply split_last_inv in P2 as [P2 _].
    destruct (split_last (h ++ "1"%char :: d1)) as [[a b]|] eqn:Q.
    - rewrite E1' in Q. rewrite split_last_app in Q by exact ND. injection Q as <- <-.
      apply to_values_app in V1 as (x & y & Vx & _ & _). apply to_values_inv in Vx as [Fx ->].
      assert (O : forallb (fun c => negb (ceqb c "1"%char)) (map char_of x) = true).
      { rewrite forallb_forall. intros z Hz. apply in_map_iff in Hz as (v & <- & Hv). rewrite Forall_forall in Fx. pose proof (char_facts v (Fx v Hv)) as F.
        apply andb_true_iff in F as [F _]. apply andb_true_iff in F as [F _]. apply andb_true_iff in F as [_ F]. exact F. }
      pose proof (split_last_app h (map char_of x) O) as P1. rewrite E1', split_last_app in P1 by exact ND. injection P1 as <- <-. split; reflexivity.
    - rewrite E1' in Q. rewrite split_last_app in Q by exact ND. discriminate. }
  destruct X as [-> ->].
  apply to_values_app in V1 as (x & y & Vx & Vy & ->). apply to_values_app in V2 as (x' & y' & Vx' & Vy' & ->).
  rewrite Vx in Vx'. injection Vx' as <-. cbn [to_values] in Vy, Vy'.
  destruct (value_of (lower c)) as [v|] eqn:Ev; [|discriminate]. destruct (value_of (lower c')) as [w|] eqn:Ew; [|discriminate].
  destruct (to_values (map lower s2)) as [b|]; [|discriminate]. injection Vy as <-. injection Vy' as <-.
  apply value_of_inv in Ev as [Lv Ev], Ew as [Lw Ew]. rewrite (subst_detected h x v w b Lv Lw) in G2; [discriminate| |exact G1].
  intros ->. apply D. congruence.
Qed.

(** ** Regrouping bits *)
Definition bits (w : nat) (v : N) : list bool := map (fun i => N.testbit v (N.of_nat i)) (rev (seq 0 w)).
Fixpoint blist_eqb (a b : list bool) : bool :=
  match a, b with [], [] => true | x :: a', y :: b' => Bool.eqb x y && blist_eqb a' b' | _, _ => false end.
Lemma blist_eqb_eq a b : blist_eqb a b = true -> a = b.
Proof. revert b; induction a as [|x a IH]; intros [|y b] H; try discriminate; [reflexivity|]. cbn in H. apply andb_true_iff in H as [H1 H2]. apply Bool.eqb_prop in H1. rewrite (IH _ H2). congruence. Qed.
Lemma bits_length w v : length (bits w v) = w.
Proof. unfold bits. rewrite map_length, rev_length, seq_length. reflexivity. Qed.

Lemma below (k : nat) (P : N -> bool) : forallb P (map N.of_nat (seq 0 k)) = true -> forall v, v < N.of_nat k -> P v = true.
Proof. intros H v Hv. rewrite forallb_forall in H. apply H. apply in_map_iff. exists (N.to_nat v). split; [lia|]. apply in_seq. lia. Qed.

Definition upto (k : nat) : list N := map N.of_nat (seq 0 k).
Definition step_check (from to : N) (b next filled : N) : bool :=
  let '(out, nx, fl) := regroup1 from to b next filled in
  blist_eqb (bits (N.to_nat filled) next ++ bits (N.to_nat from) b) (flat_map (bits (N.to_nat to)) out ++ bits (N.to_nat fl) nx) &&
  (fl <? to) && (nx <? 2 ^ fl) && forallb (fun v => v <? 2 ^ to) out.
Lemma check_all from to : forallb (fun filled => forallb (fun next => forallb (fun b => step_check from to b next filled) (upto (N.to_nat (2 ^ from)))) (upto (N.to_nat (2 ^ filled)))) (upto (N.to_nat to)) = true ->
  forall b next filled, filled < to -> next < 2 ^ filled -> b < 2 ^ from -> step_check from to b next filled = true.
Proof.
  intros H b next filled H1 H2 H3.
  assert (E : forall n x, x < n -> In x (upto (N.to_nat n))).
  { intros n x L. apply in_map_iff. exists (N.to_nat x). split; [lia|]. apply in_seq. lia. }
  rewrite forallb_forall in H. specialize (H filled (E _ _ H1)). rewrite forallb_forall in H. specialize (H next (E _ _ H2)).
  rewrite forallb_forall in H. exact (H b (E _ _ H3)).
Qed.

Lemma regroup_spec from to : 
  (forall b next filled, filled < to -> next < 2 ^ filled -> b < 2 ^ from -> step_check from to b next filled = true) ->
  forall data, Forall (fun b => b < 2 ^ from) data -> forall next filled, filled < to -> next < 2 ^ filled ->
  let '(out, nx, fl) := regroup from to data next filled in
  bits (N.to_nat filled) next ++ flat_map (bits (N.to_nat from)) data = flat_map (bits (N.to_nat to)) out ++ bits (N.to_nat fl) nx /\
  fl < to /\ nx < 2 ^ fl /\ Forall (fun v => v < 2 ^ to) out.
Proof.
  intros C data H. induction H as [|b data Hb H IH]; intros next filled Hf Hn.
  - cbn [regroup flat_map]. rewrite app_nil_r. repeat split; try assumption. constructor.
  - cbn [regroup]. specialize (C b next filled Hf Hn Hb). unfold step_check in C.
    destruct (regroup1 from to b next filled) as [[o1 n1] f1]. apply andb_true_iff in C as [C C4]. apply andb_true_iff in C as [C C3]. apply andb_true_iff in C as [C1 C2].
    apply blist_eqb_eq in C1. specialize (IH n1 f1 ltac:(lia) ltac:(lia)). destruct (regroup from to data n1 f1) as [[o2 n2] f2].
    destruct IH as (I1 & I2 & I3 & I4). repeat split; try assumption.
    + cbn [flat_map]. rewrite app_assoc, C1, flat_map_app, <- !app_assoc. f_equal. exact I1.
    + apply Forall_app. split; [|exact I4]. apply Forall_forall. intros v Hv. rewrite forallb_forall in C4. specialize (C4 v Hv). lia.
Qed.

Lemma check85 b next filled : filled < 5 -> next < 2 ^ filled -> b < 2 ^ 8 -> step_check 8 5 b next filled = true.
Proof. apply check_all. vm_compute. reflexivity. Qed.
Lemma check58 b next filled : filled < 8 -> next < 2 ^ filled -> b < 2 ^ 5 -> step_check 5 8 b next filled = true.
Proof. apply check_all. vm_compute. reflexivity. Qed.

Lemma pad_bits next filled : filled < 5 -> next < 2 ^ filled -> filled <> 0 ->
  bits 5 (shl8 next (5 - filled)) = bits (N.to_nat filled) next ++ repeat false (5 - N.to_nat filled) /\ shl8 next (5 - filled) < 2 ^ 5.
Proof.
  intros H1 H2 H3.
  assert (G : forallb (fun filled => forallb (fun next => (filled =? 0) || (blist_eqb (bits 5 (shl8 next (5 - filled))) (bits (N.to_nat filled) next ++ repeat false (5 - N.to_nat filled)) && (shl8 next (5 - filled) <? 2 ^ 5))) (upto (N.to_nat (2 ^ filled)))) (upto 5) = true) by (vm_compute; reflexivity).
  assert (E : forall n x, x < n -> In x (upto (N.to_nat n))).
  { intros n x L. apply in_map_iff. exists (N.to_nat x). split; [lia|]. apply in_seq. lia. }
  rewrite forallb_forall in G. specialize (G filled (E 5 _ H1)). rewrite forallb_forall in G. specialize (G next (E _ _ H2)).
  apply orb_true_iff in G as [G|G]; [apply N.eqb_eq in G; contradiction|]. apply andb_true_iff in G as [G1 G2]. split; [apply blist_eqb_eq, G1|lia].
Qed.

(** Bytes into groups of five bits: the same bits, with fewer than five zeros behind. *)
Lemma groups_spec data : Forall (fun b => b < 256) data -> exists out k, convert_bits data 8 5 true = Ok out /\ (k < 5)%nat /\
  flat_map (bits 5) out = flat_map (bits 8) data ++ repeat false k /\ Forall (fun v => v < 32) out.
Proof.
  intro H. unfold convert_bits. pose proof (regroup_spec 8 5 check85 data H 0 0 ltac:(lia) ltac:(reflexivity)) as R.
  destruct (regroup 8 5 data 0 0) as [[out nx] fl]. destruct R as (R1 & R2 & R3 & R4).
  change (N.to_nat 8) with 8%nat in R1. change (N.to_nat 5) with 5%nat in R1. cbn [N.to_nat bits seq rev map app] in R1.
  destruct (N.eqb_spec fl 0) as [->|Nz]; cbn [andb negb].
  - exists out, 0%nat. split; [reflexivity|]. split; [lia|]. split; [|exact R4]. rewrite R1. cbn. rewrite !app_nil_r. reflexivity.
  - exists (out ++ [shl8 nx (5 - fl)]), (5 - N.to_nat fl)%nat. destruct (pad_bits nx fl R2 R3 Nz) as [P1 P2]. repeat split; [lia| |].
    + rewrite flat_map_app. cbn [flat_map]. rewrite app_nil_r, P1, R1, app_assoc. reflexivity.
    + apply Forall_app. split; [exact R4|constructor; [exact P2|constructor]].
Qed.

Lemma app_split_len {A} (a b x y : list A) : length a = length b -> a ++ x = b ++ y -> a = b /\ x = y.
Proof.
  revert b; induction a as [|u a IH]; intros [|v b] L E; cbn in L; try discriminate L; [split; [reflexivity|exact E]|].
  cbn [app] in E. injection E as -> E. injection L as L. destruct (IH b L E) as [-> ->]. split; reflexivity.
Qed.

Lemma bits_inj8 a b : a < 256 -> b < 256 -> bits 8 a = bits 8 b -> a = b.
Proof.
  intros Ha Hb E. apply N.bits_inj. intro n. destruct (N.lt_ge_cases n 8) as [L|L].
  - unfold bits in E. cbn [seq rev map app N.of_nat Pos.of_succ_nat] in E. injection E as E7 E6 E5 E4 E3 E2 E1 E0.
    assert (C : n = 0 \/ n = 1 \/ n = 2 \/ n = 3 \/ n = 4 \/ n = 5 \/ n = 6 \/ n = 7) by lia.
    destruct C as [->|[->|[->|[->|[->|[->|[->| ->]]]]]]]; assumption.
  - rewrite !(testbit_above _ 8 n) by assumption. reflexivity.
Qed.
Lemma flat_bits_inj a : forall b, Forall (fun v => v < 256) a -> Forall (fun v => v < 256) b -> flat_map (bits 8) a = flat_map (bits 8) b -> a = b.
Proof.
  induction a as [|x a IH]; intros [|y b] Ha Hb E; [reflexivity| | |].
  - apply (f_equal (@length bool)) in E. cbn [flat_map] in E. rewrite app_length, bits_length in E. cbn in E. lia.
  - apply (f_equal (@length bool)) in E. cbn [flat_map] in E. rewrite app_length, bits_length in E. cbn in E. lia.
  - cbn [flat_map] in E. inversion Ha; inversion Hb; subst.
    assert (X : bits 8 x = bits 8 y /\ flat_map (bits 8) a = flat_map (bits 8) b) by (apply app_split_len; [rewrite !bits_length; reflexivity|exact E]).
    destruct X as [X1 X2]. f_equal; [apply bits_inj8; assumption|apply IH; assumption].
Qed.
Lemma flat_bits_length w l : length (flat_map (bits w) l) = (w * length l)%nat.
Proof. induction l as [|x l IH]; [cbn; lia|]. cbn [flat_map length]. rewrite app_length, bits_length, IH. lia. Qed.

Lemma zero_bits fl nx : nx < 2 ^ fl -> (forall x, In x (bits (N.to_nat fl) nx) -> x = false) -> nx = 0.
Proof.
  intros H Z. apply N.bits_inj. intro n. rewrite N.bits_0. destruct (N.lt_ge_cases n fl) as [L|L]; [|apply (testbit_above _ fl); assumption].
  apply Z. unfold bits. apply in_map_iff. exists (N.to_nat n). split; [f_equal; lia|]. apply in_rev. rewrite rev_involutive. apply in_seq. lia.
Qed.

Lemma regroup_back data : Forall (fun b => b < 256) data -> exists out, convert_bits data 8 5 true = Ok out /\ Forall (fun v => v < 32) out /\
  convert_bits out 5 8 false = Ok data.
Proof.
  intro H. destruct (groups_spec data H) as (out & k & E & Hk & Hb & Ho). exists out. split; [exact E|]. split; [exact Ho|].
  unfold convert_bits. pose proof (regroup_spec 5 8 check58 out Ho 0 0 ltac:(lia) ltac:(reflexivity)) as R.
  destruct (regroup 5 8 out 0 0) as [[o nx] fl]. destruct R as (R1 & R2 & R3 & R4).
  change (N.to_nat 8) with 8%nat in R1. change (N.to_nat 5) with 5%nat in R1. cbn [N.to_nat bits seq rev map app] in R1. rewrite Hb in R1.
  change (map (fun i : nat => N.testbit nx (N.of_nat i)) (rev (seq 0 (N.to_nat fl)))) with (bits (N.to_nat fl) nx) in R1.
  assert (L := f_equal (@length bool) R1). rewrite !app_length, !flat_bits_length, repeat_length, bits_length in L.
  assert (LL : length data = length o /\ k = N.to_nat fl) by lia. destruct LL as [L1 L2].
  assert (X : flat_map (bits 8) data = flat_map (bits 8) o /\ repeat false k = bits (N.to_nat fl) nx)
    by (apply app_split_len; [rewrite !flat_bits_length, L1; reflexivity|exact R1]).
  destruct X as [X1 X2]. apply flat_bits_inj in X1; [|exact H|exact R4]. subst o.
  assert (Z : nx = 0). { apply (zero_bits fl); [exact R3|]. rewrite <- X2. intros x Hx. apply repeat_spec in Hx. exact Hx. }
  subst nx. cbn [andb].
  destruct (N.ltb_spec 4 fl); [lia|]. cbn [orb negb N.eqb]. rewrite andb_false_r. reflexivity.
Qed.
