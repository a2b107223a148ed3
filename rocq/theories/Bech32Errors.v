(** How many wrong characters the checksum of a bech32 text notices; lemmas for C129. *)
From Coq Require Import FMapPositive.
From Verif Require Import Base EventModel Bech32Model Bech32Proofs.
Import ListNotations.
Open Scope N_scope.

(** ** The period *)
Lemma drift_period k e : e < 32 -> drift k e = drift (k mod 1023) e.
Proof.
  intros H1. destruct (N.eq_dec e 0) as [->|H2].
  { assert (Z : forall n, drift n 0 = 0) by (induction n as [|n IH]; [reflexivity|rewrite drift_S, IH; reflexivity]). rewrite !Z. reflexivity. }
  destruct (orbit_ok_spec _ _ _ (orbits e H1 H2)) as [P _].
  assert (R : forall q, drift (1023 * q) e = e).
  { induction q as [|q IH]; [reflexivity|]. replace (1023 * S q)%nat with (1023 * q + 1023)%nat by lia. rewrite drift_add, IH. exact P. }
  rewrite (Nat.div_mod k 1023) at 1 by discriminate. rewrite drift_add, R. reflexivity.
Qed.

(** ** Tables of what single errors do *)
Fixpoint trace (n : nat) (i : N) (v : N) : list (N * N) := match n with O => [] | S m => (i, v) :: trace m (i + 1) (pstep v 0) end.
Lemma trace_in n : forall i v k, (k < n)%nat -> In (i + N.of_nat k, drift k v) (trace n i v).
Proof.
  induction n as [|n IH]; intros i v k H; [lia|]. cbn [trace]. destruct k as [|k].
  - left. rewrite N.add_0_r. reflexivity.
  - right. replace (i + N.of_nat (S k)) with (i + 1 + N.of_nat k) by lia. change (drift (S k) v) with (drift k (pstep v 0)). apply IH. lia.
Qed.
Definition errs : list N := map N.of_nat (seq 1 31).
Lemma errs_in e : e < 32 -> e <> 0 -> In e errs.
Proof. intros H1 H2. unfold errs. apply in_map_iff. exists (N.to_nat e). split; [lia|]. apply in_seq. lia. Qed.
Definition singles (n : nat) : list (N * N * N) := flat_map (fun e => map (fun p => (fst p, e, snd p)) (trace n 0 e)) errs.
Lemma singles_in n k e : (k < n)%nat -> e < 32 -> e <> 0 -> In (N.of_nat k, e, drift k e) (singles n).
Proof. intros H1 H2 H3. unfold singles. apply in_flat_map. exists e. split; [apply errs_in; assumption|]. apply in_map_iff. exists (N.of_nat k, drift k e). split; [reflexivity|]. exact (trace_in n 0 e k H1). Qed.
Definition table (l : list (N * N * N)) : PositiveMap.t (N * N) := fold_left (fun m x => PositiveMap.add (N.succ_pos (snd x)) (fst x) m) l (PositiveMap.empty _).
Definition look (m : PositiveMap.t (N * N)) (v : N) : option (N * N) := PositiveMap.find (N.succ_pos v) m.

(** ** Two errors anywhere in one period *)
Definition unlucky (p : N * N) (q : N * N) : bool := (fst p =? 33) && (snd p =? 19) && (fst q =? 192) && (snd q =? 19).
Definition two_check (n : nat) : bool :=
  let l := singles n in let m := table l in
  forallb (fun x => let '(i, e, v) := x in
    match look m v with Some (j, f) => (i =? j) && (e =? f) | None => false end &&
    match look m (N.lxor v delta) with None => true | Some q => unlucky (i, e) q || unlucky q (i, e) end) l.
Lemma two_facts n : two_check n = true -> exists m, forall i e, (i < n)%nat -> e < 32 -> e <> 0 -> look m (drift i e) = Some (N.of_nat i, e) /\
  match look m (N.lxor (drift i e) delta) with None => True | Some q => unlucky (N.of_nat i, e) q = true \/ unlucky q (N.of_nat i, e) = true end.
Proof.
  intros T. unfold two_check in T. cbv zeta in T. exists (table (singles n)). rewrite forallb_forall in T. intros i e I1 E1 E2. specialize (T _ (singles_in n i e I1 E1 E2)). cbv iota beta in T. apply andb_prop in T as [A C]. split.
  - destruct (look (table (singles n)) (drift i e)) as [[j f]|]; [|discriminate]. apply andb_prop in A as [A1 A2]. apply N.eqb_eq in A1, A2. congruence.
  - destruct (look (table (singles n)) (N.lxor (drift i e) delta)); [apply orb_prop in C; exact C|exact Logic.I].
Qed.
Lemma two_checked : two_check 1023 = true.
Proof. vm_compute. reflexivity. Qed.
Lemma two_same i j e f : (i < 1023)%nat -> (j < 1023)%nat -> e < 32 -> e <> 0 -> f < 32 -> f <> 0 -> drift i e = drift j f -> i = j.
Proof. intros I1 J1 E1 E2 F1 F2 H. destruct (two_facts _ two_checked) as (m & T). destruct (T i e I1 E1 E2) as [A _]. destruct (T j f J1 F1 F2) as [C _]. rewrite H in A. assert (N.of_nat i = N.of_nat j) by congruence. lia. Qed.
Lemma two_delta i j e f : (i < 1023)%nat -> (j < 1023)%nat -> e < 32 -> e <> 0 -> f < 32 -> f <> 0 -> N.lxor (drift i e) (drift j f) = delta ->
  (i = 33 /\ j = 192 \/ i = 192 /\ j = 33)%nat.
Proof.
  intros I1 J1 E1 E2 F1 F2 H. destruct (two_facts _ two_checked) as (m & T). destruct (T i e I1 E1 E2) as [_ A]. destruct (T j f J1 F1 F2) as [C _].
  assert (V : N.lxor (drift i e) delta = drift j f) by (rewrite <- H, <- N.lxor_assoc, N.lxor_nilpotent, N.lxor_0_l; reflexivity). rewrite V, C in A.
  unfold unlucky in A. cbn [fst snd] in A. destruct A as [A|A]; repeat (apply andb_prop in A as [A ?]); repeat match goal with H : (_ =? _) = true |- _ => apply N.eqb_eq in H end; lia.
Qed.

(** ** Three errors among the last 79 *)
Definition three_check (n : nat) : bool :=
  let l := singles n in let m := table l in
  forallb (fun x => let '(_, _, v) := x in match look m v with Some _ => true | None => false end) l &&
  forallb (fun x => let '(i, _, v) := x in forallb (fun y => let '(j, _, w) := y in
    if j <? i then let p := N.lxor v w in match look m p with None => match look m (N.lxor p delta) with None => true | _ => false end | _ => false end else true) l) l.
Lemma three_facts n : three_check n = true -> forall i j k e f g, (j < i < n)%nat -> (k < n)%nat -> e < 32 -> e <> 0 -> f < 32 -> f <> 0 -> g < 32 -> g <> 0 ->
  let s := N.lxor (N.lxor (drift i e) (drift j f)) (drift k g) in s <> 0 /\ s <> delta.
Proof.
  intros T i j k e f g IJ K E1 E2 F1 F2 G1 G2 s. unfold three_check in T. cbv zeta in T. apply andb_prop in T as [T1 T2]. rewrite forallb_forall in T1, T2.
  specialize (T1 _ (singles_in n k g K G1 G2)). specialize (T2 _ (singles_in n i e (proj2 IJ) E1 E2)). cbv iota beta in T1, T2. rewrite forallb_forall in T2.
  assert (J : (j < n)%nat) by lia. specialize (T2 _ (singles_in n j f J F1 F2)). cbv iota beta in T2. destruct (N.ltb_spec (N.of_nat j) (N.of_nat i)) as [_|Q]; [|lia].
  set (m := table (singles n)) in *. set (p := N.lxor (drift i e) (drift j f)) in *. destruct (look m p) eqn:P1; [discriminate|]. destruct (look m (N.lxor p delta)) eqn:P2; [discriminate|].
  assert (U : forall z, s = z -> N.lxor p z = drift k g) by (intros z <-; unfold s; rewrite <- N.lxor_assoc, N.lxor_nilpotent, N.lxor_0_l; reflexivity).
  split; intro Z; apply U in Z.
  - rewrite N.lxor_0_r in Z. rewrite <- Z, P1 in T1. discriminate.
  - rewrite <- Z, P2 in T1. discriminate.
Qed.
Lemma three_checked : three_check 79 = true.
Proof. vm_compute. reflexivity. Qed.

(** ** Any number of errors *)
(** Where two value lists differ, counted from the end, and by what. *)
Fixpoint diffs (y y' : list N) : list (nat * N) :=
  match y, y' with v :: r, w :: r' => if v =? w then diffs r r' else (length r, N.lxor v w) :: diffs r r' | _, _ => [] end.
Fixpoint syn (l : list (nat * N)) : N := match l with [] => 0 | (k, e) :: r => N.lxor (drift k e) (syn r) end.
Lemma drift_0 k : drift k 0 = 0.
Proof. induction k as [|k IH]; [reflexivity|]. rewrite drift_S, IH. reflexivity. Qed.
Lemma feed_diffs c y : forall y' a, length y' = length y -> feed c (a ++ y') = N.lxor (feed c (a ++ y)) (syn (diffs y y')).
Proof.
  induction y as [|v r IH]; intros [|w r'] a L; cbn [length] in L; try discriminate.
  - cbn [diffs syn]. rewrite N.lxor_0_r. reflexivity.
  - injection L as L. replace (a ++ w :: r') with ((a ++ [w]) ++ r') by (rewrite <- app_assoc; reflexivity). rewrite (IH r' (a ++ [w]) L).
    replace ((a ++ [w]) ++ r) with (a ++ w :: r) by (rewrite <- app_assoc; reflexivity). rewrite (feed_subst c a v w r). cbn [diffs]. destruct (N.eqb_spec v w) as [->|D].
    + rewrite N.lxor_nilpotent, drift_0, N.lxor_0_r. reflexivity.
    + cbn [syn]. rewrite N.lxor_assoc. reflexivity.
Qed.
Lemma diffs_range y : forall y', Forall (fun v => v < 32) y -> Forall (fun v => v < 32) y' -> Forall (fun p => (fst p < length y)%nat /\ snd p < 32 /\ snd p <> 0) (diffs y y').
Proof.
  induction y as [|v r IH]; intros [|w r'] F F'; try constructor. inversion F as [|? ? F1 F2]; subst. inversion F' as [|? ? F3 F4]; subst. cbn [diffs].
  assert (W : Forall (fun p => (fst p < length (v :: r))%nat /\ snd p < 32 /\ snd p <> 0) (diffs r r')) by (eapply Forall_impl; [|exact (IH r' F2 F4)]; cbn [length]; intros p (A & C); split; [lia|exact C]).
  destruct (N.eqb_spec v w) as [->|D]; [exact W|]. constructor; [|exact W]. cbn [fst snd length]. repeat split; [lia| |].
  - change 32 with (2 ^ 5). apply lxor_lt; assumption.
  - intro Z. apply D, N.lxor_eq, Z.
Qed.
Lemma diffs_down y : forall y', length y' = length y -> forall k e r, diffs y y' = (k, e) :: r -> Forall (fun p => (fst p < k)%nat) r.
Proof.
  assert (BD : forall y y', Forall (fun p => (fst p < length y)%nat) (diffs y y')).
  { clear y. induction y as [|v r IH]; intros [|w r']; try constructor. cbn [diffs]. assert (W : Forall (fun p => (fst p < length (v :: r))%nat) (diffs r r')) by (eapply Forall_impl; [|exact (IH r')]; cbn [length]; intros; lia).
    destruct (v =? w); [exact W|constructor; [cbn [fst length]; lia|exact W]]. }
  induction y as [|v r IH]; intros [|w r'] L k e q H; cbn [length] in L; try discriminate. injection L as L. cbn [diffs] in H. destruct (v =? w); [exact (IH r' L k e q H)|]. injection H as <- _ <-. apply BD.
Qed.

(** ** Texts *)
(** Where two texts differ but for case, counted from the end. *)
Fixpoint places (t t' : str) : list nat :=
  match t, t' with c :: r, c' :: r' => if ceqb (lower c) (lower c') then places r r' else length r :: places r r' | _, _ => [] end.
Lemma places_diffs t : forall t' y y', to_values (map lower t) = Some y -> to_values (map lower t') = Some y' -> places t t' = map fst (diffs y y') /\ length y = length t.
Proof.
  induction t as [|c r IH]; intros t' y y' H H'.
  - cbn in H. injection H as <-. split; reflexivity.
  - cbn [map to_values] in H. destruct (value_of (lower c)) as [v|] eqn:V; [|discriminate]. destruct (to_values (map lower r)) as [z|] eqn:Z; [|discriminate]. injection H as <-.
    destruct t' as [|c' r']; [cbn in H'; injection H' as <-; split; [reflexivity|]; cbn [length]; f_equal; exact (proj2 (IH [] z [] eq_refl eq_refl))|].
    cbn [map to_values] in H'. destruct (value_of (lower c')) as [w|] eqn:W; [|discriminate]. destruct (to_values (map lower r')) as [z'|] eqn:Z'; [|discriminate]. injection H' as <-.
    destruct (IH r' z z' eq_refl Z') as [P L]. split; [|cbn [length]; f_equal; exact L]. cbn [places diffs].
    assert (E : ceqb (lower c) (lower c') = (v =? w)).
    { apply eq_true_iff_eq. unfold ceqb. rewrite Ascii.eqb_eq, N.eqb_eq. split.
      - intro E. rewrite E, W in V. congruence.
      - intros ->. apply value_of_inv in V as [_ V], W as [_ W]. congruence. }
    rewrite E. destruct (v =? w); [exact P|]. cbn [map fst]. rewrite L, P. reflexivity.
Qed.
Lemma decode_pair pre t t' r r' : decode (pre ++ t) = Ok r -> decode (pre ++ t') = Ok r' -> no_one t = true -> no_one t' = true -> t <> [] -> length t' = length t ->
  exists l, map fst l = places t t' /\ Forall (fun p => (fst p < length t)%nat /\ snd p < 32 /\ snd p <> 0) l /\ (forall k e q, l = (k, e) :: q -> Forall (fun p => (fst p < k)%nat) q) /\ (syn l = 0 \/ syn l = delta).
Proof.
  destruct r as [h ds], r' as [h2 ds2]. intros H H2 N1 N2 NE L.
  apply decode_ok in H as (d & vs & S1 & V1 & G1 & _). apply decode_ok in H2 as (d' & vs' & S2 & V2 & G2 & _). rewrite map_app in S1, S2.
  rewrite <- no_one_lower in N1, N2.
  destruct t as [|c s]; [contradiction|]. destruct t' as [|c' s']; [discriminate|].
  apply split_last_prefix in S1 as (d1 & E1 & -> & ND0); [|exact N1]. apply split_last_prefix in S2 as (d1' & E1' & -> & ND); [|exact N2].
  assert (X : h2 = h /\ d1' = d1).
  { pose proof (split_last_app h d1 ND0) as P1. pose proof (split_last_app h2 d1' ND) as P2. rewrite <- E1 in P1. rewrite <- E1' in P2. rewrite P1 in P2. injection P2 as -> ->. split; reflexivity. }
  destruct X as [-> ->]. change (lower c :: map lower s) with (map lower (c :: s)) in V1. change (lower c' :: map lower s') with (map lower (c' :: s')) in V2.
  apply to_values_app in V1 as (x & y & Vx & Vy & ->). apply to_values_app in V2 as (x' & y' & Vx' & Vy' & ->). rewrite Vx in Vx'. injection Vx' as <-.
  destruct (places_diffs (c :: s) (c' :: s') y y' Vy Vy') as [P LY]. destruct (places_diffs (c' :: s') (c :: s) y' y Vy' Vy) as [_ LY'].
  exists (diffs y y'). split; [symmetry; exact P|]. assert (LL : length y' = length y) by (rewrite LY, LY'; exact L).
  pose proof (to_values_inv _ _ Vy) as [F _]. pose proof (to_values_inv _ _ Vy') as [F' _].
  split; [rewrite <- LY; apply diffs_range; assumption|]. split; [intros k e q Q; exact (diffs_down y y' LL k e q Q)|].
  unfold polymod in G1, G2. rewrite app_assoc in G1, G2. rewrite (feed_diffs 1 y y' (expand h ++ x) LL) in G2. set (p := feed 1 ((expand h ++ x) ++ y)) in *. set (sy := syn (diffs y y')) in *.
  assert (J : forall z, N.lxor p sy = z -> sy = N.lxor p z) by (intros z <-; rewrite <- N.lxor_assoc, N.lxor_nilpotent, N.lxor_0_l; reflexivity).
  unfold good in G1, G2. apply orb_true_iff in G1 as [G1|G1], G2 as [G2|G2]; apply N.eqb_eq in G1, G2; apply J in G2; rewrite G1 in G2.
  - left. rewrite N.lxor_nilpotent in G2. exact G2.
  - right. exact G2.
  - right. rewrite G2. unfold delta. apply N.lxor_comm.
  - left. rewrite N.lxor_nilpotent in G2. exact G2.
Qed.
