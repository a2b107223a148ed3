(** Facts about the wallet's arithmetic and its choice of proofs. *)
From Verif Require Import Base WalletModel.
Import ListNotations.
Open Scope Z_scope.

(** ** What money is, without machine words *)
Definition total (ps : list proof) : Z := fold_right (fun p a => pr_amount p + a) 0 ps.
Definition worth (ts : list token) : Z := fold_right (fun t a => total (tk_proofs t) + a) 0 ts.
Definition sum (l : list Z) : Z := fold_right Z.add 0 l.
(** the price of spending a proof, in thousandths *)
Definition price (kss : list keyset) (p : proof) : Z := match find (fun k => seqb (ks_id k) (pr_ks p)) kss with Some k => ks_fee k | None => 0 end.
Definition prices (kss : list keyset) (ps : list proof) : Z := sum (map (price kss) ps).
(** the fee: the prices together, rounded up to whole units *)
Definition fee_is (kss : list keyset) (ps : list proof) (fee : Z) : Prop := 1000 * (fee - 1) < prices kss ps <= 1000 * fee.
Definition positive_proofs (ps : list proof) : Prop := Forall (fun p => 0 <= pr_amount p) ps.
Definition known_keysets (kss : list keyset) (ps : list proof) : Prop := Forall (fun p => exists k, In k kss /\ ks_id k = pr_ks p) ps.
Definition fees_positive (kss : list keyset) : Prop := Forall (fun k => 0 <= ks_fee k) kss.
Definition held (m : str) (ts : list token) : list proof := flat_map tk_proofs (filter (fun t => seqb (tk_mint t) m) ts).
Definition all_proofs (ts : list token) : list proof := flat_map tk_proofs ts.

Lemma fee_unique kss ps a b : fee_is kss ps a -> fee_is kss ps b -> a = b.
Proof. unfold fee_is. lia. Qed.

Lemma total_app a b : total (a ++ b) = total a + total b.
Proof. induction a as [|p a IH]; cbn; [reflexivity|]. fold (total (a ++ b)). fold (total a). lia. Qed.
Lemma sum_app a b : sum (a ++ b) = sum a + sum b.
Proof. induction a as [|p a IH]; cbn; [reflexivity|]. fold (sum (a ++ b)). fold (sum a). lia. Qed.
Lemma prices_app kss a b : prices kss (a ++ b) = prices kss a + prices kss b.
Proof. unfold prices. rewrite map_app. apply sum_app. Qed.
Lemma worth_app a b : worth (a ++ b) = worth a + worth b.
Proof. induction a as [|p a IH]; cbn; [reflexivity|]. fold (worth (a ++ b)). fold (worth a). lia. Qed.
Lemma worth_total ts : worth ts = total (all_proofs ts).
Proof. induction ts as [|t ts IH]; cbn; [reflexivity|]. fold (worth ts). fold (all_proofs ts). rewrite total_app. lia. Qed.
Lemma total_positive ps : positive_proofs ps -> 0 <= total ps.
Proof. induction 1; cbn; [lia|]. fold (total l). lia. Qed.
Lemma price_positive kss p : fees_positive kss -> 0 <= price kss p.
Proof. intro H. unfold price. destruct (find _ kss) eqn:E; [|lia]. apply find_some in E. destruct E as [E _]. exact (proj1 (Forall_forall _ _) H k E). Qed.
Lemma prices_positive kss ps : fees_positive kss -> 0 <= prices kss ps.
Proof. intro H. unfold prices. induction ps as [|p ps IH]; cbn; [lia|]. fold (sum (map (price kss) ps)). pose proof (price_positive kss p H). lia. Qed.
Lemma positive_app a b : positive_proofs (a ++ b) <-> positive_proofs a /\ positive_proofs b.
Proof. apply Forall_app. Qed.

Lemma held_le m ts : positive_proofs (all_proofs ts) -> 0 <= total (held m ts) <= worth ts.
Proof.
  induction ts as [|t ts IH]; [cbn; lia|]. intro H. change (all_proofs (t :: ts)) with (tk_proofs t ++ all_proofs ts) in H. apply positive_app in H. destruct H as [H1 H2]. specialize (IH H2). change (worth (t :: ts)) with (total (tk_proofs t) + worth ts).
  apply total_positive in H1. unfold held in *. cbn [filter]. destruct (seqb (tk_mint t) m); cbn [flat_map]; [rewrite total_app|]; lia.
Qed.
Lemma held_prices kss m ts : fees_positive kss -> 0 <= prices kss (held m ts) <= prices kss (all_proofs ts).
Proof.
  intro F. induction ts as [|t ts IH]; [cbn; lia|]. change (all_proofs (t :: ts)) with (tk_proofs t ++ all_proofs ts). rewrite prices_app. pose proof (prices_positive kss (tk_proofs t) F). unfold held in *. cbn [filter]. destruct (seqb (tk_mint t) m); cbn [flat_map]; [rewrite prices_app|]; lia.
Qed.
Lemma held_app m a b : held m (a ++ b) = held m a ++ held m b.
Proof. unfold held. rewrite filter_app. apply flat_map_app. Qed.
Lemma all_proofs_app a b : all_proofs (a ++ b) = all_proofs a ++ all_proofs b.
Proof. apply flat_map_app. Qed.

(** ** Machine arithmetic *)
Lemma w64_small z : 0 <= z < 18446744073709551616 -> w64 z = z.
Proof. apply Z.mod_small. Qed.
Lemma w64_range z : 0 <= w64 z < 18446744073709551616.
Proof. apply Z.mod_pos_bound. lia. Qed.
Lemma w64_add a b : w64 (w64 a + b) = w64 (a + b).
Proof. unfold w64. rewrite Zplus_mod_idemp_l. reflexivity. Qed.

Lemma amount_of_wraps ps : amount_of ps = w64 (total ps).
Proof.
  unfold amount_of. assert (G : forall a, fold_left (fun a p => w64 (a + pr_amount p)) ps (w64 a) = w64 (a + total ps)).
  { induction ps as [|p ps IH]; intro a; cbn [fold_left total fold_right]. { f_equal. lia. } rewrite w64_add, IH. f_equal. fold (total ps). lia. }
  exact (G 0).
Qed.
Lemma amount_of_total ps : 0 <= total ps < 18446744073709551616 -> amount_of ps = total ps.
Proof. rewrite amount_of_wraps. apply w64_small. Qed.
Lemma balance_wraps ts : balance ts = w64 (worth ts).
Proof.
  unfold balance. assert (G : forall a, fold_left (fun a t => w64 (a + amount_of (tk_proofs t))) ts (w64 a) = w64 (a + worth ts)).
  { induction ts as [|t ts IH]; intro a; cbn [fold_left worth fold_right]. { f_equal. lia. } rewrite amount_of_wraps.
    assert (w64 (w64 a + w64 (total (tk_proofs t))) = w64 (a + total (tk_proofs t))) as -> by (unfold w64; rewrite <- Z.add_mod by lia; reflexivity).
    rewrite IH. f_equal. fold (worth ts). lia. }
  exact (G 0).
Qed.

Lemma fee_sum_known kss ps n : (exists z, fee_sum kss ps n = Ok z) <-> known_keysets kss ps.
Proof.
  revert n. induction ps as [|p ps IH]; intro n; cbn [fee_sum]. { split; [constructor|]. intros _. eauto. }
  destruct (find _ kss) eqn:E.
  - rewrite IH. apply find_some in E. destruct E as [E1 E2]. destruct (seqb_spec (ks_id k) (pr_ks p)); [|discriminate]. split; intro H; [constructor; [eauto|exact H]|inversion H; assumption].
  - split; [intros [z H]; discriminate|]. intro H. inversion_clear H as [|? ? H1 _]. destruct H1 as (k & I & Q). pose proof (find_none _ _ E k I) as N. cbn in N. rewrite Q in N. destruct (seqb_spec (pr_ks p) (pr_ks p)); [discriminate|congruence].
Qed.
Lemma fee_sum_value kss ps n z : fees_positive kss -> 0 <= n -> n + prices kss ps < 18446744073709551616 -> fee_sum kss ps n = Ok z -> z = n + prices kss ps.
Proof.
  intros F. revert n. induction ps as [|p ps IH]; intros n N W H; cbn [fee_sum] in H. { cbn. injection H as <-. lia. }
  unfold prices in *. cbn [map sum fold_right] in *. fold (sum (map (price kss) ps)) in *. assert (X : exists k, find (fun k => seqb (ks_id k) (pr_ks p)) kss = Some k) by (destruct (find _ kss); [eauto|discriminate]). destruct X as [k E]. rewrite E in H. assert (price kss p = ks_fee k) as Q by (unfold price; rewrite E; reflexivity). rewrite Q in *.
  pose proof (prices_positive kss ps F) as P. unfold prices in P. apply find_some in E. destruct E as [E _]. pose proof (proj1 (Forall_forall _ _) F k E) as K. cbn in K. rewrite w64_small in H by lia.
  apply IH in H; lia.
Qed.
Lemma calc_fee_known kss ps : (exists z, calc_fee ps kss = Ok z) <-> known_keysets kss ps.
Proof.
  rewrite <- (fee_sum_known kss ps 0). unfold calc_fee. destruct (fee_sum kss ps 0) as [x| |]; cbn [obind]; split; intros [z H]; try discriminate; eauto.
Qed.
Lemma calc_fee_not_err kss ps : calc_fee ps kss <> Err.
Proof. unfold calc_fee. assert (G : forall n, fee_sum kss ps n <> Err). { induction ps as [|p ps IH]; intro n; cbn [fee_sum]; [discriminate|]. destruct (find _ kss); [apply IH|discriminate]. } specialize (G 0). destruct (fee_sum kss ps 0); cbn; congruence. Qed.
Definition fees_fit (kss : list keyset) (ps : list proof) : Prop := fees_positive kss /\ prices kss ps < 9223372036854775808.
Lemma calc_fee_value kss ps fee : fees_fit kss ps -> calc_fee ps kss = Ok fee -> fee_is kss ps fee /\ 0 <= fee < 9223372036854775808.
Proof.
  intros [F W] H. unfold calc_fee in H. destruct (fee_sum kss ps 0) as [x| |] eqn:E; try discriminate. cbn [obind] in H. pose proof (prices_positive kss ps F).
  apply fee_sum_value in E; [|exact F|lia|lia]. subst x. rewrite w64_small in H by lia. assert (fee = (0 + prices kss ps + 999) / 1000) as -> by congruence.
  unfold fee_is. lia.
Qed.

(** ** Splitting an amount into powers of two *)
Lemma split_bits_sum f pos a : 0 <= pos -> 0 <= a < 2 ^ Z.of_nat f -> sum (split_bits f pos a) = 2 ^ pos * a.
Proof.
  revert pos a. induction f as [|f IH]; intros pos a P A. { change (2 ^ Z.of_nat 0) with 1 in A. assert (a = 0) as -> by lia. cbn. lia. }
  cbn [split_bits]. destruct (Z.eqb_spec a 0) as [->|N]; [cbn; lia|]. rewrite Nat2Z.inj_succ, Z.pow_succ_r in A by lia. rewrite sum_app, IH by lia.
  rewrite Z.pow_add_r by lia. change (2 ^ 1) with 2.
  destruct (Z.odd a) eqn:D.
  - cbn. rewrite Zodd_mod in D. apply Zeq_bool_eq in D. nia.
  - cbn. rewrite Zodd_mod in D. assert (a mod 2 = 0) by (pose proof (Z.mod_pos_bound a 2); destruct (Z.eq_dec (a mod 2) 1) as [Q|]; [rewrite Q in D; discriminate|lia]). nia.
Qed.
Lemma amount_split_sum a : 0 <= a < 18446744073709551616 -> sum (amount_split a) = a.
Proof. intro H. unfold amount_split. rewrite split_bits_sum; [lia|lia|]. change (2 ^ Z.of_nat 64) with 18446744073709551616. lia. Qed.
Lemma split_bits_power f pos a x : 0 <= pos -> In x (split_bits f pos a) -> exists k, pos <= k < pos + Z.of_nat f /\ x = 2 ^ k.
Proof.
  revert pos a. induction f as [|f IH]; intros pos a P H; [destruct H|]. cbn [split_bits] in H. destruct (a =? 0); [destruct H|]. apply in_app_or in H. destruct H as [H|H].
  - destruct (Z.odd a); [|destruct H]. destruct H as [<-|[]]. exists pos. lia.
  - apply IH in H; [|lia]. destruct H as (k & K & ->). exists k. lia.
Qed.
Lemma split_bits_nodup f pos a : 0 <= pos -> NoDup (split_bits f pos a).
Proof.
  revert pos a. induction f as [|f IH]; intros pos a P; [constructor|]. cbn [split_bits]. destruct (a =? 0); [constructor|]. destruct (Z.odd a); cbn; [|apply IH; lia]. constructor; [|apply IH; lia].
  intro H. apply split_bits_power in H; [|lia]. destruct H as (k & K & E). apply Z.pow_inj_r in E; lia.
Qed.
Lemma amount_split_power a x : In x (amount_split a) -> exists k, 0 <= k < 64 /\ x = 2 ^ k.
Proof. intro H. apply split_bits_power in H; [|lia]. destruct H as (k & K & ->). exists k. lia. Qed.
Lemma amount_split_nil a : 0 <= a < 18446744073709551616 -> amount_split a = [] -> a = 0.
Proof. intros H E. rewrite <- (amount_split_sum a H), E. reflexivity. Qed.

(** ** Choosing proofs *)
(** the places in [ts], counted from [i], of the tokens of a mint *)
Fixpoint places (m : str) (i : nat) (ts : list token) : list nat :=
  match ts with [] => [] | t :: r => (if seqb (tk_mint t) m then [i] else []) ++ places m (S i) r end.
Lemma places_app m i a b : places m i (a ++ b) = places m i a ++ places m (i + length a) b.
Proof.
  revert i. induction a as [|t a IH]; intro i; cbn [app places length]. { rewrite Nat.add_0_r. reflexivity. }
  rewrite IH, app_assoc. do 2 f_equal. lia.
Qed.
Lemma places_in m i ts j : In j (places m i ts) <-> (i <= j)%nat /\ exists t, nth_error ts (j - i) = Some t /\ tk_mint t = m.
Proof.
  revert i. induction ts as [|t ts IH]; intro i; cbn [places]. { split; [intros []|]. intros [_ (t & H & _)]. destruct (j - i)%nat; discriminate. }
  rewrite in_app_iff, IH. split.
  - intros [H|[L (u & H & E)]].
    + destruct (seqb_spec (tk_mint t) m) as [E|]; [|destruct H]. destruct H as [<-|[]]. split; [lia|]. rewrite Nat.sub_diag. exists t. auto.
    + split; [lia|]. exists u. split; [|exact E]. replace (j - i)%nat with (S (j - S i)) by lia. exact H.
  - intros [L (u & H & E)]. destruct (Nat.eq_dec i j) as [->|N].
    + left. rewrite Nat.sub_diag in H. injection H as ->. destruct (seqb_spec (tk_mint u) m); [left; reflexivity|congruence].
    + right. split; [lia|]. exists u. split; [|exact E]. replace (j - i)%nat with (S (j - S i)) in H by lia. exact H.
Qed.

Definition allowed (specific : str) (exclude : list str) (m : str) : Prop := (specific = [] \/ m = specific) /\ ~ In m exclude.
Lemma existsb_mem m l : existsb (seqb m) l = true <-> In m l.
Proof. rewrite existsb_exists. split; [intros (x & I & E); destruct (seqb_spec m x); [subst; exact I|discriminate]|]. intro I. exists m. split; [exact I|]. destruct (seqb_spec m m); [reflexivity|congruence]. Qed.

Section Choose.
Variable M : mints.
Variables (amount : Z) (specific : str) (exclude : list str).
(** what has been gathered at a mint after the tokens [pre] *)
Definition gathered (pre : list token) (by_mint : list (str * chosen)) : Prop := forall m, allowed specific exclude m ->
  match get_part m by_mint with
  | Some p => exists kss, m_keysets M m = Some kss /\ p = mkCh m (places m 0 pre) (held m pre) kss
  | None => forall t, In t pre -> tk_mint t <> m
  end.
(** the test: the proofs cover the amount and the amount with the fee *)
Definition covers (kss : list keyset) (ps : list proof) : Prop := exists fee, calc_fee ps kss = Ok fee /\ amount <= amount_of ps /\ w64 (amount + fee) <= amount_of ps.

Lemma none_held m pre : (forall t, In t pre -> tk_mint t <> m) -> held m pre = [] /\ places m 0 pre = [].
Proof.
  intro H. split.
  - unfold held. induction pre as [|t pre IH]; [reflexivity|]. cbn [filter]. destruct (seqb_spec (tk_mint t) m) as [E|]; [destruct (H t (or_introl eq_refl) E)|]. apply IH. intros u I. apply H. right. exact I.
  - destruct (places m 0 pre) as [|j l] eqn:E; [reflexivity|]. exfalso. assert (I : In j (places m 0 pre)) by (rewrite E; left; reflexivity). apply places_in in I. destruct I as [_ (t & N & Q)]. apply nth_error_In in N. exact (H t N Q).
Qed.

Lemma choose_spec ts pre by_mint : gathered pre by_mint ->
  match choose M amount specific exclude (length pre) ts by_mint with
  | Ok (c, fee) => exists a t b kss, ts = a ++ t :: b /\ allowed specific exclude (tk_mint t) /\ m_keysets M (tk_mint t) = Some kss /\
      c = mkCh (tk_mint t) (places (tk_mint t) 0 (pre ++ a ++ [t])) (held (tk_mint t) (pre ++ a ++ [t])) kss /\
      calc_fee (ch_proofs c) kss = Ok fee /\ amount <= amount_of (ch_proofs c) /\ w64 (amount + fee) <= amount_of (ch_proofs c)
  | Err => (exists t, In t ts /\ allowed specific exclude (tk_mint t) /\ m_keysets M (tk_mint t) = None) \/
           (forall t, In t ts -> allowed specific exclude (tk_mint t) -> exists kss, m_keysets M (tk_mint t) = Some kss /\ ~ covers kss (held (tk_mint t) (pre ++ ts)))
  | Panic => exists t kss, In t ts /\ allowed specific exclude (tk_mint t) /\ m_keysets M (tk_mint t) = Some kss /\ ~ known_keysets kss (held (tk_mint t) (pre ++ ts))
  end.
Proof.
  revert pre by_mint. induction ts as [|t ts IH]; intros pre by_mint G; cbn [choose]. { right. intros t []. }
  set (skip := choose M amount specific exclude (S (length pre)) ts by_mint).
  assert (SKIP : ~ allowed specific exclude (tk_mint t) -> match skip with
    | Ok (c, fee) => exists a t0 b kss, t :: ts = a ++ t0 :: b /\ allowed specific exclude (tk_mint t0) /\ m_keysets M (tk_mint t0) = Some kss /\
        c = mkCh (tk_mint t0) (places (tk_mint t0) 0 (pre ++ a ++ [t0])) (held (tk_mint t0) (pre ++ a ++ [t0])) kss /\
        calc_fee (ch_proofs c) kss = Ok fee /\ amount <= amount_of (ch_proofs c) /\ w64 (amount + fee) <= amount_of (ch_proofs c)
    | Err => (exists t0, In t0 (t :: ts) /\ allowed specific exclude (tk_mint t0) /\ m_keysets M (tk_mint t0) = None) \/
           (forall t0, In t0 (t :: ts) -> allowed specific exclude (tk_mint t0) -> exists kss, m_keysets M (tk_mint t0) = Some kss /\ ~ covers kss (held (tk_mint t0) (pre ++ t :: ts)))
    | Panic => exists t0 kss, In t0 (t :: ts) /\ allowed specific exclude (tk_mint t0) /\ m_keysets M (tk_mint t0) = Some kss /\ ~ known_keysets kss (held (tk_mint t0) (pre ++ t :: ts))
    end).
  { intro NA. assert (G' : gathered (pre ++ [t]) by_mint).
    { intros m A. assert (N : tk_mint t <> m) by (intro E; rewrite E in NA; contradiction). specialize (G m A). destruct (get_part m by_mint) as [p|].
      - destruct G as (kss & K & ->). exists kss. split; [exact K|]. rewrite places_app, held_app. cbn [places]. unfold held at 3. cbn [filter]. destruct (seqb_spec (tk_mint t) m); [contradiction|]. cbn. rewrite !app_nil_r. reflexivity.
      - intros u I. apply in_app_or in I. destruct I as [I|[<-|[]]]; [exact (G u I)|exact N]. }
    specialize (IH _ _ G'). rewrite app_length, Nat.add_1_r in IH. fold skip in IH. destruct skip as [[c fee]| |].
    - destruct IH as (a & t0 & b & kss & -> & A & K & C & R). exists (t :: a), t0, b, kss. rewrite <- app_assoc in C. repeat split; try assumption; apply R || apply A.
    - destruct IH as [(t0 & I & R)|R]; [left; exists t0; split; [right; exact I|exact R]|right]. intros t0 [<-|I] A; [contradiction|]. specialize (R t0 I A). rewrite <- app_assoc in R. exact R.
    - destruct IH as (t0 & kss & I & R). exists t0, kss. rewrite <- app_assoc in R. split; [right; exact I|exact R]. }
  destruct (negb (seqb specific []) && negb (seqb (tk_mint t) specific)) eqn:S1.
  { apply SKIP. intros [[->|E] _]; [discriminate|]. rewrite E in S1. destruct (seqb_spec specific specific); [rewrite andb_false_r in S1; discriminate|congruence]. }
  destruct (existsb (seqb (tk_mint t)) exclude) eqn:S2. { apply SKIP. intros [_ N]. apply existsb_mem in S2. contradiction. }
  assert (A : allowed specific exclude (tk_mint t)).
  { split.
    - destruct (seqb_spec specific []); [left; assumption|]. destruct (seqb_spec (tk_mint t) specific); [right; assumption|discriminate].
    - rewrite <- existsb_mem. congruence. }
  clear SKIP skip S1 S2.
  set (p := match get_part (tk_mint t) by_mint with Some p => Some p | None => option_map (mkCh (tk_mint t) [] []) (m_keysets M (tk_mint t)) end).
  assert (P : (p = None /\ m_keysets M (tk_mint t) = None) \/ exists kss, m_keysets M (tk_mint t) = Some kss /\ p = Some (mkCh (tk_mint t) (places (tk_mint t) 0 pre) (held (tk_mint t) pre) kss)).
  { unfold p. pose proof (G _ A) as Gt. destruct (get_part (tk_mint t) by_mint).
    - destruct Gt as (kss & K & ->). right. exists kss. auto.
    - destruct (none_held _ _ Gt) as [-> ->]. destruct (m_keysets M (tk_mint t)) as [kss|]; [right; exists kss; auto|left; auto]. }
  destruct P as [[-> N]|(kss & K & ->)]. { left. exists t. split; [left; reflexivity|auto]. }
  cbn [ch_mint ch_idx ch_proofs ch_keysets].
  assert (HH : held (tk_mint t) pre ++ tk_proofs t = held (tk_mint t) (pre ++ [t])). { rewrite held_app. f_equal. unfold held. cbn [filter]. destruct (seqb_spec (tk_mint t) (tk_mint t)); [cbn; rewrite app_nil_r; reflexivity|congruence]. }
  assert (PP : places (tk_mint t) 0 pre ++ [length pre] = places (tk_mint t) 0 (pre ++ [t])). { rewrite places_app. f_equal. cbn [places]. destruct (seqb_spec (tk_mint t) (tk_mint t)); [reflexivity|congruence]. }
  rewrite HH, PP.
  set (p' := mkCh (tk_mint t) (places (tk_mint t) 0 (pre ++ [t])) (held (tk_mint t) (pre ++ [t])) kss).
  set (next := choose M amount specific exclude (S (length pre)) ts ((tk_mint t, p') :: by_mint)).
  assert (G' : gathered (pre ++ [t]) ((tk_mint t, p') :: by_mint)).
  { intros m Am. cbn [get_part]. destruct (seqb_spec (tk_mint t) m) as [<-|N].
    - exists kss. split; [exact K|reflexivity].
    - specialize (G m Am). destruct (get_part m by_mint) as [p|].
      + destruct G as (kss' & K' & ->). exists kss'. split; [exact K'|]. rewrite places_app, held_app. cbn [places]. unfold held at 3. cbn [filter]. destruct (seqb_spec (tk_mint t) m); [contradiction|]. cbn. rewrite !app_nil_r. reflexivity.
      + intros u I. apply in_app_or in I. destruct I as [I|[<-|[]]]; [exact (G u I)|exact N]. }
  specialize (IH _ _ G'). rewrite app_length, Nat.add_1_r in IH. fold next in IH.
  assert (NEXT : ~ covers kss (held (tk_mint t) (pre ++ [t])) -> match next with
    | Ok (c, fee) => exists a t0 b kss, t :: ts = a ++ t0 :: b /\ allowed specific exclude (tk_mint t0) /\ m_keysets M (tk_mint t0) = Some kss /\
        c = mkCh (tk_mint t0) (places (tk_mint t0) 0 (pre ++ a ++ [t0])) (held (tk_mint t0) (pre ++ a ++ [t0])) kss /\
        calc_fee (ch_proofs c) kss = Ok fee /\ amount <= amount_of (ch_proofs c) /\ w64 (amount + fee) <= amount_of (ch_proofs c)
    | Err => (exists t0, In t0 (t :: ts) /\ allowed specific exclude (tk_mint t0) /\ m_keysets M (tk_mint t0) = None) \/
           (forall t0, In t0 (t :: ts) -> allowed specific exclude (tk_mint t0) -> exists kss, m_keysets M (tk_mint t0) = Some kss /\ ~ covers kss (held (tk_mint t0) (pre ++ t :: ts)))
    | Panic => exists t0 kss, In t0 (t :: ts) /\ allowed specific exclude (tk_mint t0) /\ m_keysets M (tk_mint t0) = Some kss /\ ~ known_keysets kss (held (tk_mint t0) (pre ++ t :: ts))
    end).
  { intro NC. destruct next as [[c fee]| |].
    - destruct IH as (a & t0 & b & kss' & -> & A' & K' & C & R). exists (t :: a), t0, b, kss'. rewrite <- app_assoc in C. repeat split; try assumption; apply R || apply A'.
    - destruct IH as [(t0 & I & R)|R]; [left; exists t0; split; [right; exact I|exact R]|].
      destruct (in_dec (list_eq_dec ascii_dec) (tk_mint t) (map tk_mint ts)) as [I|NI].
      + right. intros t0 [<-|I'] A'.
        * apply in_map_iff in I. destruct I as (u & E & I). assert (A'' : allowed specific exclude (tk_mint u)) by (rewrite E; exact A). specialize (R u I A''). rewrite E, <- app_assoc in R. exact R.
        * specialize (R t0 I' A'). rewrite <- app_assoc in R. exact R.
      + right. intros t0 [<-|I'] A'.
        * exists kss. split; [exact K|]. assert (held (tk_mint t) (pre ++ t :: ts) = held (tk_mint t) (pre ++ [t])) as ->; [|exact NC].
          change (t :: ts) with ([t] ++ ts). rewrite app_assoc, (held_app _ (pre ++ [t]) ts). destruct (none_held (tk_mint t) ts) as [-> _]; [|apply app_nil_r]. intros u I E. apply NI. rewrite <- E. apply in_map. exact I.
        * specialize (R t0 I' A'). rewrite <- app_assoc in R. exact R.
    - destruct IH as (t0 & kss' & I & R). exists t0, kss'. rewrite <- app_assoc in R. split; [right; exact I|exact R]. }
  destruct (amount <=? amount_of (held (tk_mint t) (pre ++ [t]))) eqn:L; [|apply NEXT; intros (fee & _ & Q & _); lia].
  destruct (calc_fee (held (tk_mint t) (pre ++ [t])) kss) as [fee| |] eqn:F; cbn [obind].
  - destruct (w64 (amount + fee) <=? amount_of (held (tk_mint t) (pre ++ [t]))) eqn:W.
    + exists [], t, ts, kss. unfold p'. cbn [app ch_proofs]. apply Z.leb_le in L. apply Z.leb_le in W. repeat split; try assumption; try apply A.
    + apply NEXT. intros (fee' & F' & _ & Q). rewrite F in F'. assert (fee = fee') as <- by congruence. lia.
  - destruct (calc_fee_not_err _ _ F).
  - exists t, kss. split; [left; reflexivity|]. split; [exact A|]. split; [exact K|]. intro KK.
    assert (known_keysets kss (held (tk_mint t) (pre ++ [t]))) as KK'. { change (t :: ts) with ([t] ++ ts) in KK. rewrite app_assoc, (held_app _ (pre ++ [t]) ts) in KK. apply Forall_app in KK. apply KK. }
    apply calc_fee_known in KK'. destruct KK' as [z Q]. congruence.
Qed.
End Choose.

(** ** Swapping *)
Lemma construct_ok has outs sigs ps : construct has outs sigs = Ok ps ->
  map pr_amount ps = map sg_amount sigs /\ (length sigs <= length outs)%nat /\ map pr_lock ps = map o_lock (firstn (length sigs) outs) /\ map pr_ks ps = map sg_ks sigs.
Proof.
  revert outs ps. induction sigs as [|s r IH]; intros outs ps H; cbn [construct] in H. { assert (ps = []) as -> by congruence. cbn. repeat split. lia. }
  destruct (has (sg_amount s)); [|discriminate]. cbn [negb] in H. destruct outs as [|o outs]; [discriminate|]. destruct (sg_good s); [|discriminate]. cbn [negb] in H.
  destruct (construct has outs r) as [q| |] eqn:E; try discriminate. cbn [obind] in H. injection H as <-. specialize (IH _ _ E). destruct IH as (I1 & I2 & I3 & I4). cbn. rewrite I1, I3, I4. repeat split; lia.
Qed.
Lemma total_sum ps : total ps = sum (map pr_amount ps).
Proof. induction ps as [|p ps IH]; cbn; [reflexivity|]. fold (total ps) (sum (map pr_amount ps)). lia. Qed.
Lemma map_o_amount l k : map o_amount (map (fun x => mkO x k) l) = l.
Proof. rewrite map_map. cbn. apply map_id. Qed.
Lemma map_o_lock l k : map o_lock (map (fun x => mkO x k) l) = map (fun _ => k) l.
Proof. rewrite map_map. reflexivity. Qed.

(** The mint signs for the amounts it was asked for. *)
Definition signs_as_asked (M : mints) : Prop := forall mint ps signer outs sigs, m_swap M mint ps signer outs = Some sigs -> map sg_amount sigs = map o_amount outs.

Lemma swap_ok M known mint ps target k signer principal change : signs_as_asked M -> swap_proofs M known mint ps target k signer = Ok (principal, change) ->
  exists kss out, m_keysets M mint = Some kss /\ split_amounts kss ps target k = Ok out /\ (exists sigs, m_swap M mint ps signer (fst out ++ snd out) = Some sigs) /\
  map pr_amount principal = map o_amount (fst out) /\ map pr_amount change = map o_amount (snd out) /\ map pr_lock principal = map o_lock (fst out) /\ map pr_lock change = map o_lock (snd out).
Proof.
  intros Hs H. unfold swap_proofs in H. destruct (other_ids M known mint) as [ids|]; [|discriminate]. destruct (m_keysets M mint) as [kss|]; [|discriminate]. destruct (collisions M ids kss); [discriminate|].
  destruct (m_active M mint) as [[ks has]|]; [|discriminate]. destruct (split_amounts kss ps target k) as [out| |] eqn:SA; try discriminate. cbn [obind] in H.
  destruct (m_swap M mint ps signer (fst out ++ snd out)) as [sigs|] eqn:SW; [|discriminate]. destruct (Nat.ltb (length sigs) (length (fst out))) eqn:L; [discriminate|].
  destruct (construct has (fst out) (firstn (length (fst out)) sigs)) as [p1| |] eqn:C1; try discriminate. cbn [obind] in H. destruct (construct has (snd out) (skipn (length (fst out)) sigs)) as [p2| |] eqn:C2; try discriminate. cbn [obind] in H.
  assert (p1 = principal /\ p2 = change) as [<- <-] by (split; congruence). pose proof (Hs _ _ _ _ _ SW) as Q. rewrite map_app in Q. apply Nat.ltb_ge in L.
  apply construct_ok in C1. apply construct_ok in C2. destruct C1 as (A1 & B1 & D1 & _), C2 as (A2 & B2 & D2 & _). exists kss, out. split; [reflexivity|]. split; [exact SA|]. split; [exists sigs; exact SW|].
  assert (LL : length sigs = (length (fst out) + length (snd out))%nat). { rewrite <- (map_length sg_amount sigs), Q, app_length, !map_length. reflexivity. }
  rewrite <- (firstn_skipn (length (fst out)) sigs), map_app in Q.
  assert (E1 : length (firstn (length (fst out)) sigs) = length (fst out)) by (rewrite firstn_length; lia). assert (E2 : length (skipn (length (fst out)) sigs) = length (snd out)) by (rewrite skipn_length; lia).
  rewrite E1, firstn_all in D1. rewrite E2, firstn_all in D2.
  assert (map sg_amount (firstn (length (fst out)) sigs) = map o_amount (fst out) /\ map sg_amount (skipn (length (fst out)) sigs) = map o_amount (snd out)) as [X Y].
  { clear - Q E1. remember (firstn (length (fst out)) sigs) as u. remember (skipn (length (fst out)) sigs) as v. clear Hequ Heqv. revert u E1 Q. generalize (fst out). intro l. induction l as [|o l IH]; intros [|x u] E1 Q; try discriminate; cbn in *.
    - split; [reflexivity|exact Q].
    - injection Q as Q1 Q2. injection E1 as E1. destruct (IH u E1 Q2) as [I J]. rewrite Q1, I. split; [reflexivity|exact J]. }
  rewrite A1, A2, X, Y, D1, D2. repeat split.
Qed.

Lemma split_ok kss ps target k out : split_amounts kss ps target k = Ok out -> exists fee, calc_fee ps kss = Ok fee /\
  ((target < amount_of ps /\ map o_amount (fst out) = amount_split target /\ map o_amount (snd out) = amount_split (w64 (amount_of ps - target - fee))) \/
   (target = amount_of ps /\ map o_amount (fst out) = amount_split (w64 (target - fee)) /\ snd out = [])) /\
  (forall o, In o (fst out ++ snd out) -> o_lock o = k).
Proof.
  unfold split_amounts. destruct (calc_fee ps kss) as [fee| |]; cbn [obind]; try discriminate. intro H. exists fee. split; [reflexivity|].
  assert (LK : forall a, forall o, In o (map (fun x => mkO x k) (amount_split a)) -> o_lock o = k). { intros a o I. apply in_map_iff in I. destruct I as (x & <- & _). reflexivity. }
  destruct (Z.ltb_spec target (amount_of ps)) as [L|L].
  - injection H as <-. cbn [fst snd]. split; [left; rewrite !map_o_amount; auto|]. intros o I. apply in_app_or in I. destruct I as [I|I]; apply LK in I; exact I.
  - destruct (Z.eqb_spec target (amount_of ps)) as [E|]; [|discriminate]. injection H as <-. cbn [fst snd]. split; [right; rewrite map_o_amount; auto|]. intros o I. apply in_app_or in I. destruct I as [I|[]]. apply LK in I. exact I.
Qed.

(** ** The tokens afterwards *)
Definition others (m : str) (ts : list token) : list token := filter (fun t => negb (seqb (tk_mint t) m)) ts.
Lemma places_ge m i ts j : In j (places m i ts) -> (i <= j)%nat.
Proof. intro H. apply places_in in H. apply H. Qed.
Lemma existsb_nat j l : existsb (Nat.eqb j) l = true <-> In j l.
Proof. rewrite existsb_exists. split; [intros (x & I & E); apply Nat.eqb_eq in E; subst; exact I|]. intro I. exists j. split; [exact I|apply Nat.eqb_refl]. Qed.
Lemma unused_none i l ts : (forall j, In j l -> (j < i)%nat) -> unused i l ts = ts.
Proof.
  revert i. induction ts as [|t ts IH]; intros i H; [reflexivity|]. cbn [unused]. destruct (existsb (Nat.eqb i) l) eqn:E. { apply existsb_nat in E. apply H in E. lia. }
  cbn. rewrite IH; [reflexivity|]. intros j I. apply H in I. lia.
Qed.
Lemma unused_places m i l a b : (forall j, In j l -> (j < i)%nat) -> unused i (l ++ places m i a) (a ++ b) = others m a ++ b.
Proof.
  revert i l. induction a as [|t a IH]; intros i l H; cbn [app places]. { rewrite app_nil_r. apply unused_none. exact H. }
  cbn [unused]. unfold others. cbn [filter]. destruct (seqb (tk_mint t) m) eqn:E; cbn [negb app].
  - assert (existsb (Nat.eqb i) (l ++ i :: places m (S i) a) = true) as -> by (apply existsb_nat, in_or_app; right; left; reflexivity). cbn [app].
    change (l ++ i :: places m (S i) a) with (l ++ [i] ++ places m (S i) a). rewrite app_assoc. apply IH. intros j I. apply in_app_or in I. destruct I as [I|[<-|[]]]; [apply H in I; lia|lia].
  - assert (existsb (Nat.eqb i) (l ++ places m (S i) a) = false) as ->.
    { destruct (existsb _ _) eqn:X; [|reflexivity]. apply existsb_nat, in_app_or in X. destruct X as [X|X]; [apply H in X; lia|apply places_ge in X; lia]. }
    cbn [app]. f_equal. apply IH. intros j I. apply H in I. lia.
Qed.
Definition ids_of (ts : list token) : list str := flat_map (fun t => match tk_event t with Some id => [id] | None => [] end) ts.
Lemma used_none i l ts : (forall j, In j l -> (j < i)%nat) -> used_ids i l ts = [].
Proof.
  revert i. induction ts as [|t ts IH]; intros i H; [reflexivity|]. cbn [used_ids]. destruct (existsb (Nat.eqb i) l) eqn:E. { apply existsb_nat in E. apply H in E. lia. }
  cbn. apply IH. intros j I. apply H in I. lia.
Qed.
Lemma used_places m i l a b : (forall j, In j l -> (j < i)%nat) -> used_ids i (l ++ places m i a) (a ++ b) = ids_of (filter (fun t => seqb (tk_mint t) m) a).
Proof.
  revert i l. induction a as [|t a IH]; intros i l H; cbn [app places]. { rewrite app_nil_r. apply used_none. exact H. }
  cbn [used_ids filter]. destruct (seqb (tk_mint t) m) eqn:E; cbn [app].
  - assert (existsb (Nat.eqb i) (l ++ i :: places m (S i) a) = true) as -> by (apply existsb_nat, in_or_app; right; left; reflexivity).
    unfold ids_of. cbn [flat_map]. f_equal. change (l ++ i :: places m (S i) a) with (l ++ [i] ++ places m (S i) a). rewrite app_assoc. apply IH. intros j I. apply in_app_or in I. destruct I as [I|[<-|[]]]; [apply H in I; lia|lia].
  - assert (existsb (Nat.eqb i) (l ++ places m (S i) a) = false) as ->.
    { destruct (existsb _ _) eqn:X; [|reflexivity]. apply existsb_nat, in_app_or in X. destruct X as [X|X]; [apply H in X; lia|apply places_ge in X; lia]. }
    cbn [app]. apply IH. intros j I. apply H in I. lia.
Qed.
Lemma worth_others m ts : worth ts = total (held m ts) + worth (others m ts).
Proof.
  induction ts as [|t ts IH]; [reflexivity|]. change (worth (t :: ts)) with (total (tk_proofs t) + worth ts). unfold held, others in *. cbn [filter]. destruct (seqb (tk_mint t) m); cbn [negb flat_map].
  - rewrite total_app. lia.
  - match goal with |- context [worth (t :: ?r)] => change (worth (t :: r)) with (total (tk_proofs t) + worth r) end. lia.
Qed.
