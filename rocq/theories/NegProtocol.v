(** The reconciliation protocol on decoded messages, its correctness, and the
    proof that the text level functions of NegModel follow it. *)
From Verif Require Import Base Nip19Model NegModel NegProofs.
Import ListNotations.
Local Open Scope Z_scope.

(** ** Intervals of a sorted list *)

(** The items x of [l] with lo <= x < hi. *)
Definition inside (lo hi : item) (l : list item) : list item :=
  filter (fun x => negb (iltb x lo) && iltb x hi) l.

Definition rank (b : item) (l : list item) : nat := length (filter (fun x => iltb x b) l).

Lemma in_inside lo hi l x : In x (inside lo hi l) <-> In x l /\ ile lo x /\ ilt x hi.
Proof.
  unfold inside. rewrite filter_In, andb_true_iff, negb_true_iff, iltb_false, iltb_spec. tauto.
Qed.

Lemma filter_all {A} (f : A -> bool) l : (forall x, In x l -> f x = true) -> filter f l = l.
Proof.
  induction l as [|x l IH]; intro H; [reflexivity|]. cbn [filter]. rewrite (H x) by now left.
  f_equal. apply IH. intros y Hy. apply H. now right.
Qed.
Lemma filter_none {A} (f : A -> bool) l : (forall x, In x l -> f x = false) -> filter f l = [].
Proof.
  induction l as [|x l IH]; intro H; [reflexivity|]. cbn [filter]. rewrite (H x) by now left.
  apply IH. intros y Hy. apply H. now right.
Qed.
Lemma filter_filter {A} (f g : A -> bool) l : filter f (filter g l) = filter (fun x => g x && f x) l.
Proof.
  induction l as [|x l IH]; [reflexivity|]. cbn [filter]. destruct (g x); cbn [filter andb]; [|exact IH].
  destruct (f x); rewrite IH; reflexivity.
Qed.

Lemma rank_le b l : (rank b l <= length l)%nat.
Proof. unfold rank. induction l as [|x l IH]; cbn [filter length]; [lia|]. destruct (iltb x b); cbn [length]; lia. Qed.

Lemma rank_none b l : Forall (ile b) l -> rank b l = 0%nat.
Proof.
  intro F. unfold rank. rewrite filter_none; [reflexivity|]. rewrite Forall_forall in F.
  intros x Hx. apply iltb_false. auto.
Qed.

Lemma sorted_tail_ile a l b : StronglySorted ilt (a :: l) -> ile b a -> Forall (ile b) (a :: l).
Proof.
  intros H K. apply StronglySorted_inv in H. destruct H as [_ F]. constructor; [exact K|].
  eapply Forall_impl; [|exact F]. intros x Hx. eapply ile_trans; [exact K|now apply ilt_ile].
Qed.

Lemma rank_mono lo hi l : ile lo hi -> (rank lo l <= rank hi l)%nat.
Proof.
  intro H. unfold rank. induction l as [|x l IH]; cbn [filter]; [lia|].
  destruct (iltb x lo) eqn:E1.
  - apply iltb_spec in E1. assert (iltb x hi = true) as -> by (apply iltb_spec; eapply ilt_ile_trans; eassumption).
    cbn [length]. lia.
  - destruct (iltb x hi); cbn [length]; lia.
Qed.

Lemma inside_range lo hi l : isorted l -> ile lo hi -> inside lo hi l = range l (rank lo l) (rank hi l).
Proof.
  intros HS HL. induction l as [|x l IH]; [reflexivity|].
  assert (HS' := HS). apply StronglySorted_inv in HS'. destruct HS' as [HS' F]. specialize (IH HS').
  unfold inside, rank in *. cbn [filter]. destruct (iltb x lo) eqn:E1.
  - assert (iltb x hi = true) as ->.
    { apply iltb_spec in E1. apply iltb_spec. eapply ilt_ile_trans; eassumption. }
    cbn [negb andb length]. unfold range in *. cbn [skipn].
    replace (S (length (filter (fun x0 => iltb x0 hi) l)) - S (length (filter (fun x0 => iltb x0 lo) l)))%nat
      with (length (filter (fun x0 => iltb x0 hi) l) - length (filter (fun x0 => iltb x0 lo) l))%nat by lia.
    exact IH.
  - cbn [negb andb].
    assert (FL : Forall (ile lo) l).
    { apply iltb_false in E1. apply (Forall_inv_tail (sorted_tail_ile x l lo HS E1)). }
    assert (R0 : length (filter (fun x0 => iltb x0 lo) l) = 0%nat) by (apply (rank_none lo l FL)).
    rewrite R0 in *. unfold range in *. cbn [skipn] in *. rewrite Nat.sub_0_r in *.
    destruct (iltb x hi) eqn:E2.
    + cbn [length firstn]. f_equal. exact IH.
    + apply iltb_false in E2. assert (FH := Forall_inv_tail (sorted_tail_ile x l hi HS E2)).
      assert (RH : length (filter (fun x0 => iltb x0 hi) l) = 0%nat) by (apply (rank_none hi l FH)).
      rewrite RH in *. exact IH.
Qed.

Lemma rank_unique l b r : (r <= length l)%nat ->
  (forall k y, (k < r)%nat -> nth_error l k = Some y -> ilt y b) ->
  (forall k y, (r <= k)%nat -> nth_error l k = Some y -> ile b y) -> rank b l = r.
Proof.
  revert r. induction l as [|x l IH]; intros r L H1 H2; [cbn [length] in L; unfold rank; cbn; lia|].
  destruct r as [|r].
  - apply rank_none. apply Forall_forall. intros y Hy. apply In_nth_error in Hy. destruct Hy as [k E].
    apply (H2 k); [lia|exact E].
  - unfold rank. cbn [filter]. assert (iltb x b = true) as -> by (apply iltb_spec; apply (H1 0%nat); [lia|reflexivity]).
    cbn [length]. f_equal. apply IH; [cbn [length] in L; lia| |].
    + intros k y Hk E. apply (H1 (S k)); [lia|exact E].
    + intros k y Hk E. apply (H2 (S k)); [lia|exact E].
Qed.

Lemma nth_rank_lt l b k y : isorted l -> (k < rank b l)%nat -> nth_error l k = Some y -> ilt y b.
Proof.
  intros HS. revert k. induction l as [|x l IH]; intros k H E; [destruct k; discriminate|].
  unfold rank in H. cbn [filter] in H. destruct (iltb x b) eqn:C.
  - destruct k as [|k]; [injection E as <-; now apply iltb_spec|]. cbn [length] in H.
    apply (IH (proj1 (StronglySorted_inv HS)) k); [unfold rank; lia|exact E].
  - apply iltb_false in C. assert (F := Forall_inv_tail (sorted_tail_ile x l b HS C)).
    rewrite (rank_none b l F : length _ = 0%nat) in H. lia.
Qed.

Lemma find_lower_bound_rank l lo hi : isorted l -> ile lo hi ->
  find_lower_bound l (rank lo l) (length l) hi = rank hi l.
Proof.
  intros HS HL. symmetry.
  destruct (find_lower_bound_spec l (rank lo l) (length l) hi (isorted_ile l HS)) as (R1 & R2 & R3).
  { pose proof (rank_le lo l). lia. }
  apply rank_unique; [lia| |].
  - intros k y Hk E. destruct (le_lt_dec (rank lo l) k) as [K|K]; [apply (R2 k); [lia|exact E]|].
    eapply ilt_ile_trans; [|exact HL]. apply (nth_rank_lt l lo k); assumption.
  - intros k y Hk E. apply (R3 k); [|exact E]. split; [exact Hk|]. apply nth_error_Some. congruence.
Qed.

(** Cutting an interval where the bound separates. *)
Lemma inside_split lo mid hi l a b : ile lo mid -> ile mid hi -> inside lo hi l = a ++ b ->
  (forall x, In x a -> ilt x mid) -> (forall x, In x b -> ile mid x) ->
  inside lo mid l = a /\ inside mid hi l = b.
Proof.
  intros H1 H2 E Ha Hb. split.
  - transitivity (filter (fun x => iltb x mid) (inside lo hi l)).
    + unfold inside. rewrite filter_filter. apply filter_ext. intro x.
      destruct (iltb x lo); [reflexivity|]. cbn [negb andb].
      destruct (iltb x mid) eqn:M; [|destruct (iltb x hi); reflexivity].
      assert (iltb x hi = true) as ->; [|reflexivity]. apply iltb_spec in M. apply iltb_spec. eapply ilt_ile_trans; eassumption.
    + rewrite E, filter_app, (filter_all _ a), (filter_none _ b), app_nil_r; [reflexivity| |].
      * intros x Hx. apply iltb_false. auto.
      * intros x Hx. apply iltb_spec. auto.
  - transitivity (filter (fun x => negb (iltb x mid)) (inside lo hi l)).
    + unfold inside. rewrite filter_filter. apply filter_ext. intro x.
      destruct (iltb x mid) eqn:M; cbn [negb andb]; [rewrite andb_false_r; reflexivity|].
      rewrite andb_true_r. assert (iltb x lo = false) as ->; [|reflexivity].
      apply iltb_false in M. apply iltb_false. eapply ile_trans; eassumption.
    + rewrite E, filter_app, (filter_none _ a), (filter_all _ b); [reflexivity| |].
      * intros x Hx. apply negb_true_iff, iltb_false. auto.
      * intros x Hx. apply negb_false_iff, iltb_spec. auto.
Qed.

Lemma inside_sub_length lo hi lo' hi' l : ile lo lo' -> ile hi' hi ->
  (length (inside lo' hi' l) <= length (inside lo hi l))%nat.
Proof.
  intros H1 H2. unfold inside. induction l as [|x l IH]; cbn [filter]; [lia|].
  destruct (negb (iltb x lo') && iltb x hi') eqn:E.
  - apply andb_true_iff in E. destruct E as [E1 E2]. apply negb_true_iff, iltb_false in E1. apply iltb_spec in E2.
    assert (negb (iltb x lo) && iltb x hi = true) as ->; [|cbn [length]; lia].
    apply andb_true_iff. split; [apply negb_true_iff, iltb_false; eapply ile_trans; eassumption|].
    apply iltb_spec. eapply ilt_ile_trans; eassumption.
  - destruct (negb (iltb x lo) && iltb x hi); cbn [length]; lia.
Qed.

(** ** Decoded messages *)

Inductive payload := PSkip | PFp (f : str) | PIds (l : list str).
Definition rng : Type := item * payload.

Definition ptext (p : payload) : str :=
  match p with
  | PSkip => write_byte 0
  | PFp f => write_byte 1 ++ f
  | PIds l => write_byte 2 ++ vtext (Z.of_nat (length l)) ++ concat l
  end.

Fixpoint mtext (last : Z) (m : list rng) : str :=
  match m with
  | [] => []
  | (b, p) :: m' => btext last b ++ ptext p ++ mtext (it_ts b) m'
  end.

Definition last_ts (last : Z) (m : list rng) : Z := fold_left (fun _ r => it_ts (fst r)) m last.

Lemma mtext_app last m1 m2 : mtext last (m1 ++ m2) = mtext last m1 ++ mtext (last_ts last m1) m2.
Proof.
  revert last. induction m1 as [|[b p] m1 IH]; intro last; [reflexivity|].
  cbn [app mtext]. rewrite IH. cbn [last_ts fold_left fst]. rewrite <- !app_assoc. reflexivity.
Qed.

(** A party's items: sorted, with 64 character ids, timestamps that can be
    sent, no more of them than can be counted, and ids that differ within their
    first 17 bytes when the timestamps are equal. *)
Definition good (l : list item) : Prop :=
  isorted l /\
  (forall x, In x l -> length (it_id x) = 64%nat /\ 0 <= it_ts x < 2 ^ 56 - 1) /\
  (forall x y, In x l -> In y l -> x <> y -> it_ts x = it_ts y -> firstn 34 (it_id x) <> firstn 34 (it_id y)) /\
  Z.of_nat (length l) < 2 ^ 56.

Lemma in_range l i j x : In x (range l i j) -> In x l.
Proof.
  unfold range. intro H. rewrite <- (firstn_skipn i l). apply in_or_app. right.
  rewrite <- (firstn_skipn (j - i) (skipn i l)). apply in_or_app. now left.
Qed.

Lemma skipn_plus {A} (l : list A) a b : skipn (a + b) l = skipn b (skipn a l).
Proof. revert l; induction a as [|a IH]; intros l; [reflexivity|]. destruct l as [|x l]; cbn [Nat.add skipn]; [now destruct b|apply IH]. Qed.

Section Proto.
Variable sha : str -> str.

Definition fp (l : list item) : str :=
  match get_fingerprint sha (accumulate acc_zero acc_zero l) (Z.of_nat (length l)) with Ok s => s | _ => [] end.

Lemma encode_varint_ok n : 0 <= n < 2 ^ 56 -> exists v, encode_varint n = Ok v.
Proof.
  intro H. destruct (varint_roundtrip n [] H) as [E _]. unfold write_varint in E.
  destruct (encode_varint n); [eauto|discriminate..].
Qed.

Lemma fingerprint_fp l i j : Z.of_nat (length l) < 2 ^ 56 -> (i <= j <= length l)%nat ->
  fingerprint sha l i j = Ok (fp (range l i j)).
Proof.
  intros HL H. unfold fp, fingerprint. rewrite range_length by lia.
  replace (Z.of_nat j - Z.of_nat i) with (Z.of_nat (j - i)) by lia.
  unfold get_fingerprint. destruct (encode_varint_ok (Z.of_nat (j - i)) ltac:(lia)) as [v E]. rewrite E. reflexivity.
Qed.

(** SplitRange on decoded data: [sub] are the items of the range, [hi] its bound. *)
Fixpoint asplit_loop (num k i : nat) (rest : list item) (hi : item) : list rng :=
  match k with
  | O => []
  | S k' =>
      let n := bucket_size num i in
      let chunk := firstn n rest in
      let rest' := skipn n rest in
      let nb := match rest' with
                | [] => hi
                | c :: _ => match nth_error rest (n - 1) with
                            | Some p => match get_minimal_bound p c with Ok b => b | _ => hi end
                            | None => hi
                            end
                end in
      (nb, PFp (fp chunk)) :: asplit_loop num k' (i + 1) rest' hi
  end.

Definition asplit (sub : list item) (hi : item) : list rng :=
  if (length sub <? buckets * 2)%nat then [(hi, PIds (map it_id sub))]
  else asplit_loop (length sub) buckets 0 sub hi.

(** reconcileAux on decoded data: answer, ids only we have, ids only they have. *)
Definition skip_of (sk : bool) (lo : item) : list rng := if sk then [(lo, PSkip)] else [].

Fixpoint arec (client : bool) (items : list item) (lo : item) (sk : bool) (m : list rng)
    : list rng * list str * list str :=
  match m with
  | [] => ([], [], [])
  | (hi, p) :: m' =>
      let sub := inside lo hi items in
      match p with
      | PSkip => arec client items hi true m'
      | PFp f =>
          if seqb f (fp sub) then arec client items hi true m'
          else let '(o, h, hn) := arec client items hi false m' in
               (skip_of sk lo ++ asplit sub hi ++ o, h, hn)
      | PIds l =>
          if client then
            let '(left_, haves) := compare_ids (dedup l) sub in
            let '(o, h, hn) := arec client items hi true m' in
            (o, haves ++ h, left_ ++ hn)
          else
            let '(o, h, hn) := arec client items hi false m' in
            (skip_of sk lo ++ [(hi, PIds (map it_id sub))] ++ o, h, hn)
      end
  end.

(** What an honest sender holding [l] writes: bounds ascend from [lo] to
    [hi], fingerprints and id lists are those of its items in each range. *)
Definition payload_ok (l : list item) (lo b : item) (p : payload) : Prop :=
  match p with
  | PSkip => True
  | PFp f => f = fp (inside lo b l)
  | PIds ids => ids = map it_id (inside lo b l)
  end.

Inductive covers (l : list item) : item -> list rng -> item -> Prop :=
| cov_nil lo : covers l lo [] lo
| cov_cons lo b p m hi : ile lo b -> bound_ok b -> payload_ok l lo b p -> covers l b m hi ->
    covers l lo ((b, p) :: m) hi.

Lemma covers_app l lo m1 mid m2 hi : covers l lo m1 mid -> covers l mid m2 hi -> covers l lo (m1 ++ m2) hi.
Proof. induction 1; intro; [assumption|]. cbn [app]. constructor; auto. Qed.

Lemma covers_le l lo m hi : covers l lo m hi -> ile lo hi.
Proof. induction 1; [apply ile_refl|]. eapply ile_trans; eassumption. Qed.

Lemma covers_last_ts l lo m hi : covers l lo m hi -> m <> [] -> forall t, last_ts t m = it_ts hi.
Proof.
  induction 1 as [|lo b p m hi H1 H2 H3 H4 IH]; intros N t; [congruence|].
  unfold last_ts. cbn [fold_left fst]. fold (last_ts (it_ts b) m). destruct m as [|r m].
  - inversion H4; subst. reflexivity.
  - apply IH. discriminate.
Qed.

(** ** Splitting *)

Fixpoint sum_sizes (num k i : nat) : nat :=
  match k with O => O | S k' => (bucket_size num i + sum_sizes num k' (i + 1))%nat end.

Lemma sum_sizes_total num : sum_sizes num buckets 0 = num.
Proof.
  unfold buckets. cbn [sum_sizes Nat.add]. unfold bucket_size, buckets.
  pose proof (Nat.div_mod num 16 ltac:(lia)) as D. pose proof (Nat.mod_upper_bound num 16 ltac:(lia)) as U.
  set (q := (num / 16)%nat) in *. set (r := (num mod 16)%nat) in *. clearbody q r. subst num.
  do 16 (destruct r as [|r]; [cbn [Nat.ltb Nat.leb]; lia|]). lia.
Qed.

Lemma bucket_size_ge num i : (buckets * 2 <= num)%nat -> (2 <= bucket_size num i < num)%nat.
Proof.
  intro H. unfold bucket_size, buckets in *. pose proof (Nat.div_mod num 16 ltac:(lia)) as D.
  pose proof (Nat.mod_upper_bound num 16 ltac:(lia)) as U.
  set (q := (num / 16)%nat) in *. set (r := (num mod 16)%nat) in *. clearbody q r.
  destruct (i <? r)%nat; lia.
Qed.

Lemma sum_sizes_pos num k i : (buckets * 2 <= num)%nat -> (0 < k)%nat -> (2 <= sum_sizes num k i)%nat.
Proof. intros H K. destruct k as [|k]; [lia|]. cbn [sum_sizes]. pose proof (bucket_size_ge num i H). lia. Qed.

(** The items of a range: a contiguous, sorted, separable part of a good list. *)
Lemma inside_sorted l lo hi : isorted l -> isorted (inside lo hi l).
Proof.
  intro H. unfold inside. induction H as [|a l H IH F]; [constructor|].
  cbn [filter]. destruct (negb (iltb a lo) && iltb a hi); [|exact IH]. constructor; [exact IH|].
  rewrite Forall_forall in *. intros x Hx. apply filter_In in Hx. apply F, Hx.
Qed.

(** One bucket: the bound after it separates it from the rest. *)
Lemma split_step l lo hi rest n c rest' : good l -> (0 < n)%nat -> inside lo hi l = rest -> skipn n rest = c :: rest' ->
  exists p b, nth_error rest (n - 1) = Some p /\ nth_error rest n = Some c /\ get_minimal_bound p c = Ok b /\ ile lo b /\ ile b hi /\ bound_ok b /\ inside lo b l = firstn n rest /\ inside b hi l = c :: rest'.
Proof.
  intros (HS & HW & HD & _) Hn HI ES.
  assert (LR : (n < length rest)%nat).
  { assert (L := skipn_length n rest). rewrite ES in L. cbn [length] in L. lia. }
  destruct (nth_error rest (n - 1)) as [p|] eqn:EP; [|apply nth_error_None in EP; lia].
  assert (EC : nth_error rest n = Some c) by (rewrite <- (Nat.add_0_r n), <- nth_error_skipn, ES; reflexivity).
  assert (SR : isorted rest) by (rewrite <- HI; apply inside_sorted, HS).
  assert (IR : forall x, In x rest -> In x l /\ ile lo x /\ ilt x hi) by (intros x Hx; apply in_inside; rewrite HI; exact Hx).
  assert (Ip := IR p (nth_error_In _ _ EP)). assert (Ic := IR c (nth_error_In _ _ EC)).
  assert (Hpc : ilt p c) by (apply (StronglySorted_nth ilt rest (n - 1) n); [exact SR|lia|assumption..]).
  destruct (minimal_bound_spec p c) as (b & EB & B1 & B2 & B3 & B4 & B5).
  { apply HW, Ip. } { apply HW, Ic. } { exact Hpc. }
  { apply HD; [apply Ip|apply Ic|]. intros ->. exact (ilt_irrefl _ Hpc). }
  assert (Hlb : ile lo b) by (eapply ile_trans; [apply Ip|now apply ilt_ile]).
  assert (Hbh : ile b hi) by (apply ilt_ile; eapply ile_ilt_trans; [exact B2|apply Ic]).
  assert (F1 : forall x, In x (firstn n rest) -> ilt x b).
  { intros x Hx. apply In_nth_error in Hx. destruct Hx as [j Hj].
    assert (j < n)%nat as Lj by (assert (nth_error (firstn n rest) j <> None) as C by congruence; apply nth_error_Some in C; rewrite firstn_length in C; lia).
    assert (Ej : nth_error rest j = Some x).
    { rewrite <- (firstn_skipn n rest). rewrite nth_error_app1; [exact Hj|]. rewrite firstn_length. lia. }
    destruct (Nat.eq_dec j (n - 1)) as [->|Nj]; [congruence|].
    eapply ilt_trans; [|exact B1]. apply (StronglySorted_nth ilt rest j (n - 1)); [exact SR|lia|assumption..]. }
  assert (F2 : forall x, In x (c :: rest') -> ile b x).
  { intros x Hx. assert (SC : isorted (c :: rest')) by (rewrite <- ES; apply StronglySorted_skipn, SR).
    eapply Forall_forall; [exact (sorted_tail_ile c rest' b SC B2)|exact Hx]. }
  destruct (inside_split lo b hi l (firstn n rest) (c :: rest')) as [I1 I2]; [exact Hlb|exact Hbh| |exact F1|exact F2|].
  { rewrite HI, <- ES, firstn_skipn. reflexivity. }
  exists p, b. split; [reflexivity|]. split; [exact EC|]. split; [exact EB|]. split; [exact Hlb|]. split; [exact Hbh|].
  split; [|split; assumption].
  destruct Ic as [Ic _]. apply HW in Ic. split; [exact B4|]. split; [lia|]. right. rewrite B3. apply Ic.
Qed.

Lemma asplit_loop_covers l num hi : good l -> bound_ok hi -> (buckets * 2 <= num)%nat ->
  forall k i rest lo, (0 < k)%nat -> sum_sizes num k i = length rest -> inside lo hi l = rest -> ile lo hi ->
  covers l lo (asplit_loop num k i rest hi) hi.
Proof.
  intros G Hhi Hnum. induction k as [|k IH]; intros i rest lo Hk HL HI Hlo; [lia|].
  cbn [asplit_loop sum_sizes] in *.
  pose proof (bucket_size_ge num i Hnum) as HB. set (n := bucket_size num i) in *. clearbody n.
  destruct (skipn n rest) as [|c rest'] eqn:ES.
  - assert (length rest <= n)%nat as LE.
    { assert (L := skipn_length n rest). rewrite ES in L. cbn [length] in L. lia. }
    destruct k as [|k]; [|pose proof (sum_sizes_pos num (S k) (i + 1) Hnum ltac:(lia)); lia].
    cbn [asplit_loop]. constructor; [exact Hlo|exact Hhi| |constructor].
    cbn [payload_ok]. rewrite HI, firstn_all2 by exact LE. reflexivity.
  - assert (LR : (n < length rest)%nat).
    { assert (L := skipn_length n rest). rewrite ES in L. cbn [length] in L. lia. }
    assert (Hk0 : (0 < k)%nat) by (destruct k; [cbn [sum_sizes] in HL; lia|lia]).
    destruct (split_step l lo hi rest n c rest' G ltac:(lia) HI ES) as (p & b & EP & _ & EB & Hlb & Hbh & OK & I1 & I2).
    rewrite EP, EB.
    constructor; [exact Hlb|exact OK| |].
    + cbn [payload_ok]. rewrite I1. reflexivity.
    + apply IH; [exact Hk0| |exact I2|exact Hbh].
      rewrite <- ES, skipn_length. lia.
Qed.

Lemma asplit_covers l lo hi : good l -> bound_ok hi -> ile lo hi ->
  covers l lo (asplit (inside lo hi l) hi) hi.
Proof.
  intros G Hhi Hlo. unfold asplit. destruct (Nat.ltb_spec (length (inside lo hi l)) (buckets * 2)) as [L|L].
  - constructor; [exact Hlo|exact Hhi|reflexivity|constructor].
  - apply asplit_loop_covers; try assumption; [unfold buckets; lia| |reflexivity]. apply sum_sizes_total.
Qed.

Lemma range_cons l i j x : nth_error l i = Some x -> (i < j)%nat -> range l i j = x :: range l (S i) j.
Proof.
  intros E L. unfold range.
  assert (skipn i l = x :: skipn (S i) l) as ->.
  { revert l E. clear L. induction i as [|i IH]; intros [|y l] E; try discriminate; [injection E as ->; reflexivity|].
    cbn [skipn]. rewrite (IH l E). reflexivity. }
  replace (j - i)%nat with (S (j - S i)) by lia. reflexivity.
Qed.

Lemma range_firstn l i j n : (i + n <= j)%nat -> firstn n (range l i j) = range l i (i + n).
Proof. intro H. unfold range. rewrite firstn_firstn. f_equal. lia. Qed.

Lemma range_skipn l i j n : skipn n (range l i j) = range l (i + n) j.
Proof.
  unfold range. rewrite skipn_firstn_comm, <- skipn_plus. f_equal. lia.
Qed.

(** The text SplitRange writes. *)
Lemma split_loop_text l num upper hi :
  good l -> bound_ok hi -> (upper <= length l)%nat -> (buckets * 2 <= num)%nat ->
  forall k i curr lo last, (0 < k)%nat -> sum_sizes num k i = (upper - curr)%nat ->
  inside lo hi l = range l curr upper -> ile lo hi -> 0 <= last <= it_ts lo ->
  split_loop sha l num upper hi last k i curr =
    Ok (mtext last (asplit_loop num k i (range l curr upper) hi), it_ts hi).
Proof.
  intros G Hhi HU Hnum. induction k as [|k IH]; intros i curr lo last Hk HS HI Hlo HL; [lia|].
  cbn [sum_sizes split_loop asplit_loop] in *.
  pose proof (bucket_size_ge num i Hnum) as HB. set (n := bucket_size num i) in *. clearbody n.
  rewrite range_skipn. rewrite range_firstn by lia.
  rewrite fingerprint_fp by (apply G || lia). cbn [obind].
  assert (LR := range_length l (curr + n) upper HU).
  destruct (range l (curr + n) upper) as [|c rest'] eqn:ER.
  - destruct k as [|k]; [|pose proof (sum_sizes_pos num (S k) (i + 1) Hnum ltac:(lia)); cbn [length] in LR; lia].
    cbn [sum_sizes length] in *. destruct (Nat.eqb_spec (curr + n) upper) as [EQ|?]; [|lia]. cbn [obind].
    rewrite (proj1 (bound_roundtrip last hi [] Hhi ltac:(pose proof (ile_ts _ _ Hlo); lia))). cbn [obind split_loop asplit_loop mtext ptext].
    rewrite EQ. rewrite !app_nil_r. reflexivity.
  - cbn [length] in LR.
    destruct (Nat.eqb_spec (curr + n) upper) as [?|NQ]; [lia|].
    assert (Hk0 : (0 < k)%nat) by (destruct k; [cbn [sum_sizes] in HS; lia|lia]).
    destruct (split_step l lo hi (range l curr upper) n c rest' G ltac:(lia) HI) as (p & b & EP & EC & EB & Hlb & Hbh & OK & I1 & I2).
    { rewrite range_skipn. exact ER. }
    rewrite EP, EB. rewrite nth_error_range in EP by lia. rewrite nth_error_range in EC by lia.
    replace (curr + (n - 1))%nat with (curr + n - 1)%nat in EP by lia. rewrite EP, EC, EB. cbn [obind].
    rewrite (proj1 (bound_roundtrip last b [] OK ltac:(pose proof (ile_ts _ _ Hlb); lia))). cbn [obind mtext ptext].
    rewrite <- ER in I2. rewrite (IH (i + 1)%nat (curr + n)%nat b (it_ts b) Hk0); [|lia|exact I2|exact Hbh|].
    + cbn [obind]. rewrite ER. rewrite <- !app_assoc. reflexivity.
    + pose proof (ile_ts _ _ Hlb). lia.
Qed.

Lemma flat_map_ids l : ids_text l = concat (map it_id l).
Proof. unfold ids_text. rewrite flat_map_concat_map. reflexivity. Qed.

Lemma split_range_text l lo hi last : good l -> bound_ok hi -> ile lo hi -> 0 <= last <= it_ts lo ->
  split_range sha l (rank lo l) (rank hi l) hi last = Ok (mtext last (asplit (inside lo hi l) hi), it_ts hi).
Proof.
  intros G Hhi Hlo HL. unfold split_range, asplit.
  assert (HR := inside_range lo hi l (proj1 G) Hlo).
  assert (LR := range_length l (rank lo l) (rank hi l) (rank_le hi l)).
  rewrite HR, LR. destruct (Nat.ltb_spec (rank hi l - rank lo l) (buckets * 2)) as [L|L].
  - rewrite (proj1 (bound_roundtrip last hi [] Hhi ltac:(pose proof (ile_ts _ _ Hlo); lia))). cbn [obind].
    rewrite (proj1 (varint_roundtrip (Z.of_nat (rank hi l - rank lo l)) [] ltac:(unfold buckets in L; lia))). cbn [obind mtext ptext].
    rewrite map_length, LR, flat_map_ids. rewrite !app_nil_r. reflexivity.
  - apply split_loop_text with (lo := lo); try assumption; [apply rank_le|unfold buckets; lia|apply sum_sizes_total].
Qed.


(** ** The text level follows the decoded level *)

Hypothesis sha_len : forall x, length (sha x) = 32%nat.

Lemma fp_len l : Z.of_nat (length l) < 2 ^ 56 -> length (fp l) = 32%nat.
Proof.
  intro H. unfold fp, get_fingerprint.
  destruct (encode_varint_ok (Z.of_nat (length l)) ltac:(lia)) as [v E]. rewrite E. cbn [obind].
  rewrite hex_encode_length, firstn_length, sha_len. reflexivity.
Qed.

Definition payload_wf (p : payload) : Prop :=
  match p with
  | PSkip => True
  | PFp f => length f = 32%nat
  | PIds l => Z.of_nat (length l) < 2 ^ 56 /\ Forall (fun x => length x = 64%nat) l
  end.

Lemma inside_length lo hi l : (length (inside lo hi l) <= length l)%nat.
Proof. unfold inside. induction l as [|x l IH]; cbn [filter length]; [lia|]. destruct (_ && _); cbn [length]; lia. Qed.

Lemma payload_ok_wf l lo b p : good l -> payload_ok l lo b p -> payload_wf p.
Proof.
  intros (_ & HW & _ & HZ). pose proof (inside_length lo b l) as L.
  destruct p as [|f|ids]; cbn [payload_ok payload_wf]; auto.
  - intros ->. apply fp_len. lia.
  - intros ->. rewrite map_length. split; [lia|]. apply Forall_forall. intros x Hx. apply in_map_iff in Hx.
    destruct Hx as (y & <- & Hy). apply in_inside in Hy. apply HW, Hy.
Qed.

Lemma read_string_app (n : Z) a r : Z.of_nat (length a) = n -> read_string n (a ++ r) = Ok (a, r).
Proof.
  intros <-. unfold read_string. destruct (Z.ltb_spec (Z.of_nat (length a)) 0) as [?|_]; [lia|].
  rewrite app_length. destruct (Z.ltb_spec (Z.of_nat (length a + length r)) (Z.of_nat (length a))) as [?|_]; [lia|].
  rewrite Nat2Z.id, firstn_app, firstn_all, Nat.sub_diag, skipn_app, skipn_all, Nat.sub_diag. cbn [firstn skipn].
  rewrite app_nil_r. reflexivity.
Qed.

Lemma read_ids_concat : forall l fuel r, (length l <= fuel)%nat -> Forall (fun x => length x = 64%nat) l ->
  read_ids fuel (Z.of_nat (length l)) (concat l ++ r) = Ok (l, r).
Proof.
  induction l as [|x l IH]; intros fuel r HF H; [destruct fuel; reflexivity|].
  apply Forall_cons_iff in H. destruct H as [Hx H].
  destruct fuel as [|fuel]; [cbn [length] in HF; lia|]. cbn [read_ids].
  destruct (Z.leb_spec (Z.of_nat (length (x :: l))) 0) as [?|_]; [cbn [length] in *; lia|].
  cbn [concat]. rewrite <- app_assoc, read_string_app by lia. cbn [obind].
  replace (Z.of_nat (length (x :: l)) - 1) with (Z.of_nat (length l)) by (cbn [length]; lia).
  rewrite IH; [reflexivity|cbn [length] in HF; lia|exact H].
Qed.

Lemma read_mode n r : (n < 128)%N -> read_varint (write_byte n ++ r) = Ok (Z.of_N n, r).
Proof.
  intro H. unfold read_varint, write_byte. cbn [read_varint_loop]. rewrite read_hex_byte_write. cbn [obind].
  rewrite val_byte_of by lia. destruct (N.ltb_spec n 128) as [_|?]; [|lia].
  rewrite N.mod_small by lia. rewrite wrap64_small by lia. do 2 f_equal.
Qed.

Lemma concat_length_64 (l : list str) : Forall (fun x => length x = 64%nat) l -> (length l <= length (concat l))%nat.
Proof.
  induction 1 as [|x l Hx H IH]; [cbn; lia|]. cbn [concat length]. rewrite app_length. lia.
Qed.

Lemma response_ids_none full : forall l acc cnt idx,
  response_ids None full acc cnt idx l = (acc ++ concat (map it_id l), (cnt + length l)%nat, None).
Proof.
  induction l as [|x l IH]; intros acc cnt idx; cbn [response_ids over_limit map concat length].
  - rewrite app_nil_r, Nat.add_0_r. reflexivity.
  - rewrite IH, <- app_assoc. do 2 f_equal. lia.
Qed.

(** A received message the reader can follow. *)
Inductive readable : item -> list rng -> Prop :=
| rd_nil lo : readable lo []
| rd_cons lo b p m : ile lo b -> bound_ok b -> payload_wf p -> readable b m -> readable lo ((b, p) :: m).

Lemma covers_readable l lo m hi : good l -> covers l lo m hi -> readable lo m.
Proof. intros G H. induction H; constructor; auto. eapply payload_ok_wf; eassumption. Qed.

Lemma read_bound_nil last : read_bound last [] = Err.
Proof. reflexivity. Qed.

Lemma vtext_pos n : 0 <= n < 2 ^ 56 -> (0 < length (vtext n))%nat.
Proof.
  intro H. destruct (varint_roundtrip n [] H) as [_ E]. rewrite app_nil_r in E.
  destruct (vtext n); [discriminate|]. cbn [length]. lia.
Qed.

Lemma btext_pos last b : bound_ok b -> 0 <= last <= it_ts b -> (0 < length (btext last b))%nat.
Proof.
  intros H L. destruct (bound_roundtrip last b [] H L) as [_ E]. rewrite app_nil_r in E.
  destruct (btext last b); [rewrite read_bound_nil in E; discriminate|]. cbn [length]. lia.
Qed.

Lemma loop_refines client items : good items -> forall m lo fuel st,
  readable lo m -> n_in st = it_ts lo -> n_prev_bound st = lo -> n_prev_index st = rank lo items ->
  0 <= n_out st <= it_ts lo -> (n_skipping st = true -> bound_ok lo) ->
  (length (mtext (it_ts lo) m) <= fuel)%nat ->
  exists st', reconcile_loop sha fuel items None client st (mtext (it_ts lo) m) = Ok st' /\
    let '(out, h, hn) := arec client items lo (n_skipping st) m in
    n_full st' = n_full st ++ mtext (n_out st) out /\
    n_haves st' = n_haves st ++ h /\ n_havenots st' = n_havenots st ++ hn.
Proof.
  intro G. induction m as [|[b p] m IH]; intros lo fuel st HR HIn HPB HPI HO HSk HF.
  - cbn [mtext arec]. exists st. destruct fuel; cbn [reconcile_loop]; rewrite !app_nil_r; auto.
  - inversion HR as [|? ? ? ? R1 R2 R3 R4]; subst.
    assert (T1 := ile_ts _ _ R1). set (lo := n_prev_bound st) in *.
    assert (HB : 0 <= it_ts lo <= it_ts b) by lia.
    cbn [mtext] in *. assert (LP := btext_pos (it_ts lo) b R2 HB).
    destruct fuel as [|fuel]; [rewrite app_length in HF; lia|].
    assert (STEP : reconcile_loop sha (S fuel) items None client st (btext (it_ts lo) b ++ ptext p ++ mtext (it_ts b) m)
      = obind (iteration sha items None client st (btext (it_ts lo) b ++ ptext p ++ mtext (it_ts b) m))
          (fun '(st', r', stop) => if stop then Ok st' else reconcile_loop sha fuel items None client st' r')).
    { cbn [reconcile_loop]. destruct (btext (it_ts lo) b); [cbn [length] in LP; lia|]. reflexivity. }
    rewrite STEP. clear STEP. unfold iteration.
    rewrite HIn, (proj2 (bound_roundtrip _ _ _ R2 HB)). cbn [obind].
    rewrite HPI, find_lower_bound_rank by (apply G || exact R1).
    assert (HRG := inside_range lo b items (proj1 G) R1).
    assert (HF' : (length (mtext (it_ts b) m) <= fuel)%nat) by (rewrite !app_length in HF; lia).
    destruct p as [|f|ids]; cbn [ptext] in *.
    + rewrite read_mode by lia. cbn [obind]. change (Z.of_N 0 mod 256) with 0. cbn [Z.eqb]. 
      unfold end_iteration, over_limit. cbn [obind]. rewrite app_nil_r.
      destruct (IH b fuel (mkN (it_ts b) (n_out st) b (rank b items) true (n_full st) (n_haves st) (n_havenots st)))
        as (st' & E & K); [exact R4|reflexivity..|cbn [n_out]; lia|intros _; exact R2|exact HF'|].
      exists st'. split; [exact E|]. cbn [arec]. cbn [n_skipping n_full n_out n_haves n_havenots] in K. exact K.
    + rewrite <- app_assoc, read_mode by lia. cbn [obind]. change (Z.of_N 1 mod 256) with 1. cbn [Z.eqb].
      change (1 =? 0) with false. cbn match. change (1 =? 1) with true. cbn match.
      rewrite read_string_app by (cbn [payload_wf] in R3; lia). cbn [obind].
      rewrite fingerprint_fp; [|apply G|split; [now apply rank_mono|apply rank_le]]. cbn [obind]. rewrite <- HRG.
      cbn [arec]. destruct (seqb f (fp (inside lo b items))).
      * unfold end_iteration, over_limit. cbn [obind]. rewrite app_nil_r.
        destruct (IH b fuel (mkN (it_ts b) (n_out st) b (rank b items) true (n_full st) (n_haves st) (n_havenots st)))
          as (st' & E & K); [exact R4|reflexivity..|cbn [n_out]; lia|intros _; exact R2|exact HF'|].
        exists st'. split; [exact E|]. cbn [n_skipping n_full n_out n_haves n_havenots] in K. exact K.
      * assert (HFS : finish_skip st = Ok (mtext (n_out st) (skip_of (n_skipping st) lo), last_ts (n_out st) (skip_of (n_skipping st) lo))).
        { unfold finish_skip, skip_of. destruct (n_skipping st) eqn:ESK; [|reflexivity].
          rewrite (proj1 (bound_roundtrip (n_out st) (n_prev_bound st) [] (HSk eq_refl) HO)). cbn [obind mtext ptext].
          rewrite app_nil_r. reflexivity. }
        rewrite HFS. cbn [obind].
        assert (HL1 : 0 <= last_ts (n_out st) (skip_of (n_skipping st) lo) <= it_ts lo).
        { unfold skip_of. destruct (n_skipping st); cbn; lia. }
        rewrite (split_range_text items lo b _ G R2 R1 HL1). cbn [obind].
        unfold end_iteration, over_limit. cbn [obind].
        destruct (IH b fuel (mkN (it_ts b) (it_ts b) b (rank b items) false
           (n_full st ++ mtext (n_out st) (skip_of (n_skipping st) lo) ++
              mtext (last_ts (n_out st) (skip_of (n_skipping st) lo)) (asplit (inside lo b items) b)) (n_haves st) (n_havenots st)))
          as (st' & E & K); [exact R4|reflexivity..|cbn [n_out]; lia|discriminate|exact HF'|].
        exists st'. split; [exact E|]. cbn [n_skipping n_full n_out n_haves n_havenots] in K.
        destruct (arec client items b false m) as [[o h] hn]. destruct K as (K1 & K2 & K3). split; [|split; assumption].
        rewrite K1. rewrite !mtext_app, <- !app_assoc. do 3 f_equal.
        assert (CV := asplit_covers items lo b G R2 R1).
        rewrite (covers_last_ts _ _ _ _ CV); [reflexivity|].
        unfold asplit. destruct (_ <? _)%nat; discriminate.
    + destruct R3 as [R3 R3'].
      rewrite <- !app_assoc, read_mode by lia. cbn [obind]. change (Z.of_N 2 mod 256) with 2.
      change (2 =? 0) with false. cbn match. change (2 =? 1) with false. cbn match. change (2 =? 2) with true. cbn match.
      rewrite (proj2 (varint_roundtrip _ _ (conj (Zle_0_nat (length ids)) R3))). cbn [obind].
      rewrite read_ids_concat; [|rewrite app_length; exact (Nat.le_trans _ _ _ (concat_length_64 ids R3') (Nat.le_add_r _ _))|exact R3']. cbn [obind].
      rewrite <- HRG. cbn [arec].
      destruct client.
      * destruct (compare_ids (dedup ids) (inside lo b items)) as [left_ haves].
        unfold end_iteration, over_limit. cbn [obind]. rewrite app_nil_r.
        destruct (IH b fuel (mkN (it_ts b) (n_out st) b (rank b items) true (n_full st) (n_haves st ++ haves) (n_havenots st ++ left_)))
          as (st' & E & K); [exact R4|reflexivity..|cbn [n_out]; lia|intros _; exact R2|exact HF'|].
        exists st'. split; [exact E|]. cbn [n_skipping n_full n_out n_haves n_havenots] in K.
        destruct (arec true items b true m) as [[o h] hn]. destruct K as (K1 & K2 & K3).
        rewrite K1, K2, K3, <- !app_assoc. auto.
      * destruct (compare_ids (dedup ids) (inside lo b items)) as [left_ haves].
        assert (HFS : finish_skip st = Ok (mtext (n_out st) (skip_of (n_skipping st) lo), last_ts (n_out st) (skip_of (n_skipping st) lo))).
        { unfold finish_skip, skip_of. destruct (n_skipping st) eqn:ESK; [|reflexivity].
          rewrite (proj1 (bound_roundtrip (n_out st) (n_prev_bound st) [] (HSk eq_refl) HO)). cbn [obind mtext ptext].
          rewrite app_nil_r. reflexivity. }
        rewrite HFS. cbn [obind]. rewrite response_ids_none. cbn [app Nat.add].
        assert (HL1 : 0 <= last_ts (n_out st) (skip_of (n_skipping st) lo) <= it_ts b).
        { unfold skip_of. destruct (n_skipping st); cbn; lia. }
        rewrite (proj1 (bound_roundtrip _ b [] R2 HL1)). cbn [obind].
        assert (HLI := inside_length lo b items).
        rewrite (proj1 (varint_roundtrip (Z.of_nat (length (inside lo b items))) [] ltac:(destruct G as (_ & _ & _ & GZ); lia))). cbn [obind].
        unfold end_iteration, over_limit. cbn [obind]. rewrite app_nil_r.
        match goal with |- context [mkN (it_ts b) (it_ts b) b (rank b items) false ?F ?H ?HN] =>
          destruct (IH b fuel (mkN (it_ts b) (it_ts b) b (rank b items) false F H HN))
            as (st' & E & K); [exact R4|reflexivity..|cbn [n_out]; lia|discriminate|exact HF'|] end.
        exists st'. split; [exact E|]. cbn [n_skipping n_full n_out n_haves n_havenots] in K.
        destruct (arec false items b false m) as [[o h] hn]. destruct K as (K1 & K2 & K3). split; [|split; assumption].
        rewrite K1. rewrite !mtext_app, <- !app_assoc. do 2 f_equal. cbn [mtext ptext last_ts fold_left fst]. rewrite map_length.
        rewrite <- !app_assoc. reflexivity.
Qed.


(** ** Correctness of one step *)

(** [x] is in a range of the message that is not a skip / that is an id list. *)
Fixpoint openr (lo : item) (m : list rng) (x : item) : Prop :=
  match m with
  | [] => False
  | (b, p) :: m' => (p <> PSkip /\ ile lo x /\ ilt x b) \/ openr b m' x
  end.
Fixpoint listed (lo : item) (m : list rng) (x : item) : Prop :=
  match m with
  | [] => False
  | (b, p) :: m' => ((exists l, p = PIds l) /\ ile lo x /\ ilt x b) \/ listed b m' x
  end.
Fixpoint each (P : item -> item -> payload -> Prop) (lo : item) (m : list rng) : Prop :=
  match m with
  | [] => True
  | (b, p) :: m' => P lo b p /\ each P b m'
  end.

Lemma openr_app l lo m1 mid m2 x : covers l lo m1 mid -> openr lo (m1 ++ m2) x <-> openr lo m1 x \/ openr mid m2 x.
Proof.
  induction 1 as [|lo b p m hi H1 H2 H3 H4 IH]; cbn [app openr]; [tauto|]. rewrite IH. tauto.
Qed.
Lemma each_app P l lo m1 mid m2 : covers l lo m1 mid -> each P lo (m1 ++ m2) <-> each P lo m1 /\ each P mid m2.
Proof.
  induction 1 as [|lo b p m hi H1 H2 H3 H4 IH]; cbn [app each]; [tauto|]. rewrite IH. tauto.
Qed.
Lemma openr_bounds l lo m hi x : covers l lo m hi -> openr lo m x -> ile lo x /\ ilt x hi.
Proof.
  induction 1 as [|lo b p m hi H1 H2 H3 H4 IH]; cbn [openr]; [tauto|].
  apply covers_le in H4. intros [(_ & A & B)|O].
  - split; [exact A|]. eapply ilt_ile_trans; eassumption.
  - destruct (IH O) as [A B]. split; [|exact B]. eapply ile_trans; eassumption.
Qed.
Lemma listed_open lo m x : listed lo m x -> openr lo m x.
Proof.
  revert lo. induction m as [|[b p] m IH]; intro lo; cbn [listed openr]; [tauto|].
  intros [((l & ->) & A & B)|L]; [left; split; [discriminate|tauto]|right; auto].
Qed.
Lemma openr_noskip l lo m hi x : covers l lo m hi -> each (fun _ _ p => p <> PSkip) lo m ->
  ile lo x -> ilt x hi -> openr lo m x.
Proof.
  induction 1 as [|lo b p m hi H1 H2 H3 H4 IH]; cbn [each openr].
  - intros _ A B. exfalso. eapply ilt_irrefl. eapply ile_ilt_trans; eassumption.
  - intros [N E] A B. destruct (ilt_dec x b) as [L|L]; [left; tauto|].
    right. apply IH; [exact E|now apply not_ilt|exact B].
Qed.
Lemma each_impl (P Q : item -> item -> payload -> Prop) : (forall lo b p, P lo b p -> Q lo b p) ->
  forall m lo, each P lo m -> each Q lo m.
Proof. intro H. induction m as [|[b p] m IH]; intro lo; cbn [each]; [tauto|]. intros [A B]. split; auto. Qed.

Lemma asplit_loop_fps num hi : forall k i rest lo, each (fun _ _ p => exists f, p = PFp f) lo (asplit_loop num k i rest hi).
Proof. induction k as [|k IH]; intros i rest lo; cbn [asplit_loop each]; eauto. Qed.

Lemma asplit_noskip sub hi lo : each (fun _ _ p => p <> PSkip) lo (asplit sub hi).
Proof.
  unfold asplit. destruct (_ <? _)%nat; [cbn; split; [discriminate|exact I]|].
  eapply each_impl; [|apply asplit_loop_fps]. cbv beta. intros ? ? p [f ->]. discriminate.
Qed.

(** The buckets are smaller than the range, and inside it. *)
Lemma asplit_loop_small l num hi : good l -> (buckets * 2 <= num)%nat ->
  forall k i rest lo, (0 < k)%nat -> sum_sizes num k i = length rest -> inside lo hi l = rest -> ile lo hi ->
  each (fun a b _ => ile lo a /\ ile b hi /\ (length (inside a b l) < num)%nat) lo (asplit_loop num k i rest hi).
Proof.
  intros G Hnum. induction k as [|k IH]; intros i rest lo Hk HL HI Hlo; [lia|].
  cbn [asplit_loop sum_sizes each] in *.
  pose proof (bucket_size_ge num i Hnum) as HB. set (n := bucket_size num i) in *. clearbody n.
  destruct (skipn n rest) as [|c rest'] eqn:ES.
  - assert (length rest <= n)%nat as LE.
    { assert (L := skipn_length n rest). rewrite ES in L. cbn [length] in L. lia. }
    destruct k as [|k]; [|pose proof (sum_sizes_pos num (S k) (i + 1) Hnum ltac:(lia)); lia].
    cbn [asplit_loop each]. split; [|exact I]. rewrite HI. split; [apply ile_refl|]. split; [apply ile_refl|]. lia.
  - assert (LR : (n < length rest)%nat).
    { assert (L := skipn_length n rest). rewrite ES in L. cbn [length] in L. lia. }
    assert (Hk0 : (0 < k)%nat) by (destruct k; [cbn [sum_sizes] in HL; lia|lia]).
    destruct (split_step l lo hi rest n c rest' G ltac:(lia) HI ES) as (p & b & EP & _ & EB & Hlb & Hbh & OK & I1 & I2).
    rewrite EP, EB. split.
    + split; [apply ile_refl|]. split; [exact Hbh|]. rewrite I1, firstn_length. lia.
    + eapply each_impl; [|apply IH; [exact Hk0| |exact I2|exact Hbh]].
      * cbv beta. intros a b0 _ (A & B & D). split; [|tauto]. eapply ile_trans; eassumption.
      * rewrite <- ES, skipn_length. lia.
Qed.

Definition differ (a b : list item) (x : item) : Prop := (In x a /\ ~ In x b) \/ (In x b /\ ~ In x a).

(** How many more messages a range can cause: [k] for an id list. *)
Definition weight_le (a b : list item) (k w : nat) (lo hi : item) (p : payload) : Prop :=
  match p with
  | PSkip => True
  | PFp _ => (length (inside lo hi a) + length (inside lo hi b) + 2 <= w)%nat
  | PIds _ => (k <= w)%nat
  end.

Definition pending (sk : bool) (lo0 lo : item) : Prop := if sk then ile lo0 lo else lo0 = lo.

Lemma skip_of_covers l sk lo0 lo : pending sk lo0 lo -> (sk = true -> bound_ok lo) -> covers l lo0 (skip_of sk lo) lo.
Proof.
  unfold pending, skip_of. destruct sk.
  - intros H K. constructor; auto; [exact I|constructor].
  - intros -> _. constructor.
Qed.
Lemma skip_of_open sk lo0 lo x : openr lo0 (skip_of sk lo) x <-> False.
Proof. unfold skip_of. destruct sk; cbn [openr]; tauto. Qed.
Lemma skip_of_weight a b k w sk lo0 lo : each (weight_le a b k w) lo0 (skip_of sk lo).
Proof. unfold skip_of. destruct sk; cbn; auto. Qed.

(** The assumption on fingerprints: two ranges with equal fingerprints hold the
    same items. *)
Definition fp_sound (a b : list item) : Prop :=
  forall lo hi, ile lo hi -> fp (inside lo hi b) = fp (inside lo hi a) -> inside lo hi a = inside lo hi b.

Lemma step_correct client (a b : list item) : good a -> fp_sound a b ->
  forall m lo lo0 sk hi out h hn,
  covers b lo m hi -> pending sk lo0 lo -> (sk = true -> bound_ok lo) ->
  arec client a lo sk m = (out, h, hn) ->
  (exists hi', covers a lo0 out hi') /\
  (forall x, openr lo0 out x -> openr lo m x /\ (client = true -> ~ listed lo m x)) /\
  (forall x, differ a b x -> openr lo m x -> (client = true /\ listed lo m x) \/ openr lo0 out x) /\
  (forall w, each (weight_le a b (if client then 1 else 2) w) lo m ->
     each (weight_le a b (if client then 2 else 1) (w - 1)) lo0 out) /\
  (out = [] \/ exists x, In x out /\ snd x <> PSkip).
Proof.
  intros G HFP. induction m as [|[bd p] m IH]; intros lo lo0 sk hi out h hn HC HP HB E.
  - cbn [arec] in E. injection E as <- <- <-. inversion HC; subst. cbn [openr listed each].
    split; [eexists; constructor|]. split; [tauto|]. split; [tauto|]. auto.
  - inversion HC as [|? ? ? ? ? C1 C2 C3 C4]; subst. cbn [arec] in E.
    (* continuing after a skipped range *)
    assert (SKIPCASE : forall out h hn, arec client a bd true m = (out, h, hn) ->
      (exists hi', covers a lo0 out hi') /\
      (forall x, openr lo0 out x -> openr bd m x /\ (client = true -> ~ listed bd m x)) /\
      (forall x, differ a b x -> openr bd m x -> (client = true /\ listed bd m x) \/ openr lo0 out x) /\
      (forall w, each (weight_le a b (if client then 1 else 2) w) bd m ->
         each (weight_le a b (if client then 2 else 1) (w - 1)) lo0 out) /\
      (out = [] \/ exists x, In x out /\ snd x <> PSkip)).
    { intros o1 h1 hn1 E1. apply (IH bd lo0 true hi o1 h1 hn1 C4); [|intros _; exact C2|exact E1].
      cbn [pending]. unfold pending in HP. destruct sk; [eapply ile_trans; eassumption|subst; exact C1]. }
    (* an element of the current range is below everything open later *)
    assert (SEP : forall x, ile lo x -> ilt x bd -> ~ openr bd m x).
    { intros x _ L O. destruct (openr_bounds _ _ _ _ _ C4 O) as [K _]. exact (ilt_not_ile _ _ L K). }
    assert (SEPL : forall x, openr bd m x -> ~ (ile lo x /\ ilt x bd)) by (intros x O [K L]; exact (SEP x K L O)).
    destruct p as [|f|ids]; cbn [openr listed each].
    + destruct (SKIPCASE out h hn E) as (S1 & S2 & S3 & S4 & S5).
      split; [exact S1|]. split; [|split; [|split; [|exact S5]]].
      * intros x O. destruct (S2 x O) as [A B]. split; [now right|]. intros Hc [((l & K) & _)|L]; [discriminate|]. now apply (B Hc).
      * intros x D [(K & _)|O]; [congruence|]. destruct (S3 x D O) as [[A B]|A]; auto.
      * intros w [_ W]. auto.
    + cbn [payload_ok] in C3. subst f.
      destruct (seqb (fp (inside lo bd b)) (fp (inside lo bd a))) eqn:EQ.
      * apply seqb_eq in EQ. apply (HFP lo bd C1) in EQ.
        destruct (SKIPCASE out h hn E) as (S1 & S2 & S3 & S4 & S5).
        split; [exact S1|]. split; [|split; [|split; [|exact S5]]].
        -- intros x O. destruct (S2 x O) as [A B]. split; [now right|]. intros Hc [((l & K) & _)|L]; [discriminate|]. now apply (B Hc).
        -- intros x D [(_ & A & B)|O].
           ++ exfalso. assert (K : In x a <-> In x b).
              { split; intro Hx; [assert (In x (inside lo bd b)) as J by (rewrite <- EQ; apply in_inside; tauto)
                                 |assert (In x (inside lo bd a)) as J by (rewrite EQ; apply in_inside; tauto)];
                apply in_inside in J; tauto. }
              unfold differ in D. tauto.
           ++ destruct (S3 x D O) as [[A B]|A]; auto.
        -- intros w [_ W]. auto.
      * destruct (arec client a bd false m) as [[o h'] hn'] eqn:ER. injection E as <- <- <-.
        destruct (IH bd bd false hi o h' hn' C4 eq_refl ltac:(discriminate) ER) as ((hi' & S1) & S2 & S3 & S4 & S5).
        assert (CS := skip_of_covers a sk lo0 lo HP HB).
        assert (CA := asplit_covers a lo bd G C2 C1).
        assert (NS := asplit_noskip (inside lo bd a) bd lo).
        assert (NE : inside lo bd a <> [] \/ inside lo bd b <> []).
        { destruct (inside lo bd a) as [|y ya], (inside lo bd b) as [|z zb]; try (left; discriminate); try (right; discriminate).
          rewrite seqb_refl in EQ. discriminate. }
        split; [exists hi'; apply (covers_app a lo0 _ lo); [exact CS|]; apply (covers_app a lo _ bd); assumption|].
        split; [|split; [|split]].
        -- intros x O. apply (openr_app a lo0 _ lo _ x CS) in O. rewrite skip_of_open in O. destruct O as [[]|O].
           apply (openr_app a lo _ bd _ x CA) in O. destruct O as [O|O].
           ++ destruct (openr_bounds _ _ _ _ _ CA O) as [A B]. split; [left; split; [discriminate|tauto]|].
              intros _ [((l & K) & _)|L]; [discriminate|]. apply listed_open in L. now apply (SEP x).
           ++ destruct (S2 x O) as [A B]. split; [now right|]. intros Hc [((l & K) & _)|L]; [discriminate|]. now apply (B Hc).
        -- intros x D [(_ & A & B)|O].
           ++ right. apply (openr_app a lo0 _ lo _ x CS). right. apply (openr_app a lo _ bd _ x CA). left.
              apply (openr_noskip a lo _ bd x CA NS A B).
           ++ destruct (S3 x D O) as [[A B]|A]; [left; auto|]. right.
              apply (openr_app a lo0 _ lo _ x CS). right. apply (openr_app a lo _ bd _ x CA). now right.
        -- intros w [W1 W2]. apply (each_app _ a lo0 _ lo _ CS). split; [apply skip_of_weight|].
           apply (each_app _ a lo _ bd _ CA). split; [|apply S4; exact W2].
           cbn [weight_le] in W1.
           assert (W3 : (3 <= w)%nat).
           { destruct NE as [NE|NE].
             - destruct (inside lo bd a); [congruence|cbn [length] in W1; lia].
             - destruct (inside lo bd b); [congruence|cbn [length] in W1; lia]. }
           unfold asplit. destruct (Nat.ltb_spec (length (inside lo bd a)) (buckets * 2)) as [L|L].
           ++ cbn [each weight_le]. split; [|exact I]. destruct client; lia.
           ++ assert (SM := asplit_loop_small a _ bd G L buckets 0 (inside lo bd a) lo ltac:(unfold buckets; lia) (sum_sizes_total _) eq_refl C1).
              assert (FS := asplit_loop_fps (length (inside lo bd a)) bd buckets 0 (inside lo bd a) lo).
              assert (GEN : forall ms l0,
                each (fun a' b' _ => ile lo a' /\ ile b' bd /\ (length (inside a' b' a) < length (inside lo bd a))%nat) l0 ms ->
                each (fun _ _ p => exists f, p = PFp f) l0 ms ->
                each (weight_le a b (if client then 2 else 1) (w - 1)) l0 ms).
              { clear - W1. induction ms as [|[b' p'] ms IH]; intros l0 SM FS; [exact I|].
                cbn [each] in *. destruct SM as [(M1 & M2 & M3) SM], FS as [[f ->] FS]. split; [|apply IH; assumption].
                cbn [weight_le]. pose proof (inside_sub_length lo bd l0 b' b M1 M2). lia. }
              apply GEN; assumption.
        -- right. unfold asplit. destruct (_ <? _)%nat.
           ++ exists (bd, PIds (map it_id (inside lo bd a))). split; [|discriminate]. apply in_or_app. right. apply in_or_app. left. now left.
           ++ unfold buckets. cbn [asplit_loop]. eexists. split; [apply in_or_app; right; apply in_or_app; left; left; reflexivity|]. discriminate.
    + cbn [payload_ok] in C3. destruct client.
      * destruct (compare_ids (dedup ids) (inside lo bd a)) as [left_ haves].
        destruct (arec true a bd true m) as [[o h'] hn'] eqn:ER. injection E as <- <- <-.
        destruct (SKIPCASE o h' hn' eq_refl) as (S1 & S2 & S3 & S4 & S5).
        split; [exact S1|]. split; [|split; [|split; [|exact S5]]].
        -- intros x O. destruct (S2 x O) as [A B]. split; [now right|].
           intros Hc [(_ & K & L)|L]; [exact (SEP x K L A)|now apply (B Hc)].
        -- intros x D [(_ & A & B)|O]; [left; split; [reflexivity|]; left; split; [eexists; reflexivity|tauto]|].
           destruct (S3 x D O) as [[A B]|A]; auto.
        -- intros w [_ W]. apply S4, W.
      * destruct (arec false a bd false m) as [[o h'] hn'] eqn:ER. injection E as <- <- <-.
        destruct (IH bd bd false hi o h' hn' C4 eq_refl ltac:(discriminate) ER) as ((hi' & S1) & S2 & S3 & S4 & S5).
        assert (CS := skip_of_covers a sk lo0 lo HP HB).
        split; [exists hi'; apply (covers_app a lo0 _ lo); [exact CS|]; constructor; [exact C1|exact C2|reflexivity|exact S1]|].
        split; [|split; [|split]].
        -- intros x O. split; [|discriminate]. apply (openr_app a lo0 _ lo _ x CS) in O. rewrite skip_of_open in O.
           destruct O as [[]|O]. cbn [app openr] in O. destruct O as [(_ & K)|O]; [left; split; [discriminate|exact K]|].
           right. apply S2, O.
        -- intros x D [(_ & A & B)|O]; right; apply (openr_app a lo0 _ lo _ x CS); right; cbn [app openr].
           ++ left. split; [discriminate|tauto].
           ++ right. destruct (S3 x D O) as [[A _]|A]; [discriminate|exact A].
        -- intros w [W1 W2]. apply (each_app _ a lo0 _ lo _ CS). split; [apply skip_of_weight|].
           cbn [app each]. split; [|apply S4, W2]. cbn [weight_le] in *. lia.
        -- right. eexists. split; [apply in_or_app; right; left; reflexivity|]. discriminate.
Qed.


(** ** What the client reports *)

Definition consistent (a b : list item) : Prop :=
  forall x y, In x (a ++ b) -> In y (a ++ b) -> it_id x = it_id y -> x = y.

Lemma smem_In x l : smem x l = true <-> In x l.
Proof.
  unfold smem. rewrite existsb_exists. split.
  - intros (y & Hy & E). apply seqb_eq in E. now subst.
  - intro H. exists x. split; [exact H|apply seqb_refl].
Qed.

Lemma dedup_nodup l : NoDup l -> dedup l = l.
Proof.
  induction 1 as [|x l N H IH]; [reflexivity|]. cbn [dedup].
  destruct (smem x l) eqn:E; [apply smem_In in E; contradiction|]. rewrite IH. reflexivity.
Qed.

Lemma in_del x y l : In y (del x l) <-> In y l /\ x <> y.
Proof.
  unfold del. rewrite filter_In, negb_true_iff. split; intros [A B]; split; auto.
  - intros ->. rewrite seqb_refl in B. discriminate.
  - apply seqb_neq. exact B.
Qed.

Lemma nodup_del x l : NoDup l -> NoDup (del x l).
Proof. apply NoDup_filter. Qed.

Lemma compare_ids_spec : forall ours theirs left_ haves, NoDup (map it_id ours) -> NoDup theirs ->
  compare_ids theirs ours = (left_, haves) ->
  (forall id, In id left_ <-> In id theirs /\ ~ In id (map it_id ours)) /\ NoDup left_ /\
  (forall id, In id haves <-> In id (map it_id ours) /\ ~ In id theirs) /\ NoDup haves.
Proof.
  induction ours as [|it ours IH]; intros theirs left_ haves N1 N2 E; cbn [compare_ids map] in *.
  - injection E as <- <-. repeat split; try tauto; cbn; try tauto; try constructor; auto.
  - apply NoDup_cons_iff in N1. destruct N1 as [N0 N1].
    destruct (smem (it_id it) theirs) eqn:M.
    + apply smem_In in M. destruct (IH _ _ _ N1 (nodup_del _ _ N2) E) as (A & B & C & D).
      split; [|split; [exact B|split; [|exact D]]].
      * intro id. rewrite A, in_del. cbn [In]. tauto.
      * intro id. rewrite C, in_del. cbn [In]. split.
        -- intros [Hi Hn]. split; [now right|]. intro Ht. apply Hn. split; [exact Ht|]. intros <-. contradiction.
        -- intros [[<-|Hi] Hn]; [contradiction|]. split; [exact Hi|]. tauto.
    + destruct (compare_ids theirs ours) as [l1 h1] eqn:E1. injection E as <- <-.
      assert (M' : ~ In (it_id it) theirs) by (intro K; apply smem_In in K; congruence).
      destruct (IH _ _ _ N1 N2 E1) as (A & B & C & D).
      split; [|split; [exact B|split]].
      * intro id. rewrite A. cbn [In]. split; [|tauto]. intros [Hi Hn]. split; [exact Hi|]. intros [<-|K]; contradiction.
      * intro id. cbn [In]. rewrite C. split; [intros [<-|K]; tauto|]. tauto.
      * constructor; [|exact D]. rewrite C. tauto.
Qed.

Lemma nodup_ids l lo hi (P : forall x y, In x l -> In y l -> it_id x = it_id y -> x = y) :
  isorted l -> NoDup (map it_id (inside lo hi l)).
Proof.
  intro HS. assert (IN : forall x, In x (inside lo hi l) -> In x l) by (intros x H; apply in_inside in H; tauto).
  assert (HS' := inside_sorted l lo hi HS). revert IN HS'. generalize (inside lo hi l). intros r IN HS'.
  induction HS' as [|x r HS' IH F]; [constructor|]. cbn [map]. constructor.
  - intro K. apply in_map_iff in K. destruct K as (y & E & Hy).
    assert (y = x) as -> by (apply P; [apply IN; now right|apply IN; now left|exact E]).
    rewrite Forall_forall in F. exact (ilt_irrefl _ (F _ Hy)).
  - apply IH. intros y Hy. apply IN. now right.
Qed.

Lemma client_reports (a b : list item) : isorted a -> isorted b -> consistent a b ->
  forall m lo sk hi out h hn, covers b lo m hi -> arec true a lo sk m = (out, h, hn) ->
  ((forall id, In id h <-> exists x, In x a /\ ~ In x b /\ listed lo m x /\ it_id x = id) /\ NoDup h) /\
  ((forall id, In id hn <-> exists x, In x b /\ ~ In x a /\ listed lo m x /\ it_id x = id) /\ NoDup hn).
Proof.
  intros HA HB HC.
  assert (PA : forall x y, In x a -> In y a -> it_id x = it_id y -> x = y) by (intros x y Hx Hy; apply HC; apply in_or_app; auto).
  assert (PB : forall x y, In x b -> In y b -> it_id x = it_id y -> x = y) by (intros x y Hx Hy; apply HC; apply in_or_app; auto).
  assert (PAB : forall x y, In x a -> In y b -> it_id x = it_id y -> x = y) by (intros x y Hx Hy; apply HC; apply in_or_app; auto).
  induction m as [|[bd p] m IH]; intros lo sk hi out h hn CV E.
  - cbn [arec] in E. injection E as <- <- <-. cbn [listed In].
    repeat split; try constructor; try tauto; intros (x & _ & _ & [] & _).
  - inversion CV as [|? ? ? ? ? C1 C2 C3 C4]; subst. cbn [arec] in E.
    assert (DONE : (forall ids, p <> PIds ids) -> forall sk' out h hn, arec true a bd sk' m = (out, h, hn) ->
      ((forall id, In id h <-> exists x, In x a /\ ~ In x b /\ listed lo ((bd, p) :: m) x /\ it_id x = id) /\ NoDup h) /\
      ((forall id, In id hn <-> exists x, In x b /\ ~ In x a /\ listed lo ((bd, p) :: m) x /\ it_id x = id) /\ NoDup hn)).
    { intros NI sk' o1 h1 hn1 E1. destruct (IH bd sk' hi o1 h1 hn1 C4 E1) as ((I1 & I2) & I3 & I4).
      assert (EQ : forall x, listed lo ((bd, p) :: m) x <-> listed bd m x).
      { intro x. cbn [listed]. split; [|tauto]. intros [((l & K) & _)|L]; [exfalso; exact (NI l K)|exact L]. }
      split; (split; [|assumption]); intro id; [rewrite I1|rewrite I3];
        split; intros (x & A & B & L & D); exists x; rewrite EQ in *; auto. }
    destruct p as [|f|ids].
    + eapply DONE; [discriminate|exact E].
    + destruct (seqb f _).
      * eapply DONE; [discriminate|exact E].
      * destruct (arec true a bd false m) as [[o h'] hn'] eqn:ER. injection E as <- <- <-. eapply DONE; [discriminate|exact ER].
    + cbn [payload_ok] in C3. destruct (compare_ids (dedup ids) (inside lo bd a)) as [left_ haves] eqn:EC.
      destruct (arec true a bd true m) as [[o h'] hn'] eqn:ER. injection E as <- <- <-.
      destruct (IH bd true hi o h' hn' C4 ER) as ((I1 & I2) & I3 & I4).
      assert (NB := nodup_ids b lo bd PB HB). rewrite <- C3 in NB. assert (NA := nodup_ids a lo bd PA HA).
      rewrite (dedup_nodup _ NB) in EC.
      destruct (compare_ids_spec _ _ _ _ NA NB EC) as (L1 & L2 & L3 & L4).
      assert (INA : forall x, In x a -> In (it_id x) (map it_id (inside lo bd a)) <-> ile lo x /\ ilt x bd).
      { intros x Hx. rewrite in_map_iff. split.
        - intros (y & Ey & Hy). apply in_inside in Hy. assert (y = x) as -> by (apply PA; tauto). tauto.
        - intro H. exists x. split; [reflexivity|]. apply in_inside. tauto. }
      assert (INB : forall x, In x b -> In (it_id x) ids <-> ile lo x /\ ilt x bd).
      { intros x Hx. rewrite C3, in_map_iff. split.
        - intros (y & Ey & Hy). apply in_inside in Hy. assert (y = x) as -> by (apply PB; tauto). tauto.
        - intro H. exists x. split; [reflexivity|]. apply in_inside. tauto. }
      assert (SEP : forall x, ile lo x /\ ilt x bd -> ~ listed bd m x).
      { intros x [_ L] O. apply listed_open in O. destruct (openr_bounds _ _ _ _ _ C4 O) as [K _]. exact (ilt_not_ile _ _ L K). }
      assert (H1 : forall id, In id haves <-> exists x, In x a /\ ~ In x b /\ (ile lo x /\ ilt x bd) /\ it_id x = id).
      { intro id. rewrite L3. split.
        - intros [Hi Hn]. apply in_map_iff in Hi. destruct Hi as (x & <- & Hx). assert (Hx' := Hx). apply in_inside in Hx'.
          exists x. repeat split; try tauto. intro Hb. apply Hn. apply INB; tauto.
        - intros (x & Ha & Hb & Hr & <-). split; [now apply INA|]. rewrite C3, in_map_iff. intros (y & Ey & Hy).
          apply in_inside in Hy. assert (x = y) as <- by (apply PAB; [exact Ha|tauto|now symmetry]). tauto. }
      assert (H2 : forall id, In id left_ <-> exists x, In x b /\ ~ In x a /\ (ile lo x /\ ilt x bd) /\ it_id x = id).
      { intro id. rewrite L1. split.
        - intros [Hi Hn]. rewrite C3 in Hi. apply in_map_iff in Hi. destruct Hi as (x & <- & Hx). assert (Hx' := Hx). apply in_inside in Hx'.
          exists x. repeat split; try tauto. intro Ha. apply Hn. apply INA; tauto.
        - intros (x & Hb & Ha & Hr & <-). split; [now apply INB|]. rewrite in_map_iff. intros (y & Ey & Hy).
          apply in_inside in Hy. assert (y = x) as -> by (apply PAB; [tauto|exact Hb|exact Ey]). tauto. }
      assert (NDAPP : forall (u v : list str), NoDup u -> NoDup v -> (forall i, In i u -> ~ In i v) -> NoDup (u ++ v)).
      { clear. intros u v Hu Hv D. induction Hu as [|x u N Hu IH]; [exact Hv|]. cbn [app]. constructor.
        - rewrite in_app_iff. intros [K|K]; [contradiction|]. exact (D x (or_introl eq_refl) K).
        - apply IH. intros i Hi. apply D. now right. }
      split; split.
      * intro id. rewrite in_app_iff, H1, I1. cbn [listed]. split.
        -- intros [(x & A & B & R & D)|(x & A & B & R & D)]; exists x; repeat split; try tauto. left. split; [eexists; reflexivity|exact R].
        -- intros (x & A & B & [(_ & R)|R] & D); [left|right]; exists x; tauto.
      * apply NDAPP; [exact L4|exact I2|]. intros id A1 A2. apply H1 in A1. apply I1 in A2.
        destruct A1 as (x & X1 & _ & X2 & <-), A2 as (y & Y1 & _ & Y2 & Y3).
        assert (y = x) as -> by (apply PA; assumption). exact (SEP _ X2 Y2).
      * intro id. rewrite in_app_iff, H2, I3. cbn [listed]. split.
        -- intros [(x & A & B & R & D)|(x & A & B & R & D)]; exists x; repeat split; try tauto. left. split; [eexists; reflexivity|exact R].
        -- intros (x & A & B & [(_ & R)|R] & D); [left|right]; exists x; tauto.
      * apply NDAPP; [exact L2|exact I4|]. intros id A1 A2. apply H2 in A1. apply I3 in A2.
        destruct A1 as (x & X1 & _ & X2 & <-), A2 as (y & Y1 & _ & Y2 & Y3).
        assert (y = x) as -> by (apply PB; assumption). exact (SEP _ X2 Y2).
Qed.

(** ** Whole sessions *)

Lemma rank_zero l : (forall x, In x l -> length (it_id x) = 64%nat /\ 0 <= it_ts x < 2 ^ 56 - 1) -> rank zero_bound l = 0%nat.
Proof.
  intro H. apply rank_none. apply Forall_forall. intros x Hx. destruct (H x Hx) as [_ T].
  unfold ile, item_compare, zero_bound. cbn [it_ts it_id]. destruct (Z.eqb_spec 0 (it_ts x)) as [_|N].
  - destruct (it_id x); discriminate.
  - intro C. apply Z.compare_gt_iff in C. lia.
Qed.

Lemma below_infinite l x : good l -> In x l -> ilt x infinite_bound.
Proof.
  intros (_ & H & _) Hx. destruct (H x Hx) as [_ T].
  unfold ilt, item_compare, infinite_bound. cbn [it_ts it_id]. destruct (Z.eqb_spec (it_ts x) max_ts) as [E|N]; [unfold max_ts in E; lia|].
  apply Z.compare_lt_iff. unfold max_ts. lia.
Qed.

Lemma above_zero l x : good l -> In x l -> ile zero_bound x.
Proof.
  intros (_ & H & _) Hx. destruct (H x Hx) as [_ T].
  unfold ile, item_compare, zero_bound. cbn [it_ts it_id]. destruct (Z.eqb_spec 0 (it_ts x)) as [_|N].
  - destruct (it_id x); discriminate.
  - intro C. apply Z.compare_gt_iff in C. lia.
Qed.

Lemma bound_ok_infinite : bound_ok infinite_bound.
Proof. unfold bound_ok, infinite_bound. cbn [it_ts it_id length]. split; [exists 0%nat; reflexivity|]. split; [reflexivity|now left]. Qed.

Lemma zero_le_infinite : ile zero_bound infinite_bound.
Proof. unfold ile, item_compare. vm_compute. discriminate. Qed.

(** A complete message, with the version byte. *)
Definition message (m : list rng) : str := write_byte protocol_version ++ mtext 0 m.

Lemma mtext_nil_iff l lo m hi t : covers l lo m hi -> 0 <= t <= it_ts lo -> mtext t m = [] -> m = [].
Proof.
  destruct 1 as [|lo b p m hi H1 H2 H3 H4]; [reflexivity|]. cbn [mtext]. intros HT E.
  pose proof (ile_ts _ _ H1) as T. pose proof (btext_pos t b H2 ltac:(lia)) as L.
  destruct (btext t b); [cbn [length] in L; lia|discriminate].
Qed.

Lemma reconcile_refines client a b m hi out h hn : good a -> good b ->
  covers b zero_bound m hi -> arec client a zero_bound false m = (out, h, hn) ->
  (exists hi', covers a zero_bound out hi') ->
  reconcile sha a None client (message m) =
    if client && match out with [] => true | _ => false end then Ok ([], h, hn, true)
    else Ok (message out, h, hn, false).
Proof.
  intros GA GB CV E (hi' & CO). unfold reconcile, reconcile_aux, message.
  assert (V : read_hex_byte (write_byte protocol_version ++ mtext 0 m) = Ok (protocol_version, mtext 0 m)).
  { unfold write_byte. rewrite read_hex_byte_write. reflexivity. }
  rewrite V. cbn [obind]. rewrite N.eqb_refl. cbn [negb].
  destruct (loop_refines client a GA m zero_bound (length (mtext 0 m))
    (mkN 0 0 zero_bound 0 false (write_byte protocol_version) [] [])) as (st & ES & K).
  - eapply covers_readable; eassumption.
  - reflexivity.
  - reflexivity.
  - cbn [n_prev_index]. symmetry. apply rank_zero. apply GA.
  - cbn. lia.
  - discriminate.
  - cbn [zero_bound it_ts]. lia.
  - cbn [zero_bound it_ts] in ES. rewrite ES. cbn [obind].
    cbn [n_skipping n_full n_out n_haves n_havenots] in K. rewrite E in K. destruct K as (K1 & K2 & K3).
    rewrite K1, K2, K3. cbn [app].
    destruct out as [|r out].
    + cbn [mtext]. rewrite app_nil_r. destruct client; reflexivity.
    + assert (NZ : mtext 0 (r :: out) <> []).
      { intro Z. apply (mtext_nil_iff a zero_bound _ hi' 0 CO) in Z; [discriminate|cbn; lia]. }
      rewrite andb_false_r.
      assert (L2 : length (write_byte protocol_version ++ mtext 0 (r :: out)) <> 2%nat).
      { rewrite app_length. destruct (mtext 0 (r :: out)); [congruence|]. cbn [length]. change (length (write_byte protocol_version)) with 2%nat. lia. }
      apply Nat.eqb_neq in L2. rewrite L2. reflexivity.
Qed.

Lemma start_refines a : good a ->
  start sha a = Ok (message (asplit (inside zero_bound infinite_bound a) infinite_bound)) /\
  covers a zero_bound (asplit (inside zero_bound infinite_bound a) infinite_bound) infinite_bound.
Proof.
  intro G. split; [|apply asplit_covers; [exact G|apply bound_ok_infinite|apply zero_le_infinite]].
  unfold start, message.
  assert (R : rank infinite_bound a = length a).
  { apply rank_unique; [lia| |].
    - intros k y _ E. eapply below_infinite; [exact G|eapply nth_error_In; exact E].
    - intros k y Hk E. assert (nth_error a k <> None) as C by congruence. apply nth_error_Some in C. lia. }
  assert (T := split_range_text a zero_bound infinite_bound 0 G bound_ok_infinite zero_le_infinite ltac:(cbn; lia)).
  rewrite (rank_zero a) in T by apply G. rewrite R in T. rewrite T. reflexivity.
Qed.

Lemma each_skip_nil a b k lo m : (0 < k)%nat -> each (weight_le a b k 0) lo m -> forall x, In x m -> snd x = PSkip.
Proof.
  intro K. revert lo. induction m as [|[bd p] m IH]; intros lo W x Hx; [destruct Hx|].
  cbn [each] in W. destruct W as [W1 W2]. destruct Hx as [<-|Hx]; [|eapply IH; eassumption].
  cbn [snd]. destruct p; [reflexivity|cbn [weight_le] in W1; lia|cbn [weight_le] in W1; lia].
Qed.

Lemma fp_sound_sym a b : fp_sound a b -> fp_sound b a.
Proof. intros H lo hi L E. symmetry. apply H; [exact L|now symmetry]. Qed.

Lemma differ_sym a b x : differ a b x <-> differ b a x.
Proof. unfold differ. tauto. Qed.

Lemma weight_swap a b k w m : forall lo, each (weight_le a b k w) lo m -> each (weight_le b a k w) lo m.
Proof.
  induction m as [|[bd p] m IH]; intros lo; cbn [each]; [tauto|]. intros [W1 W2]. split; [|now apply IH].
  destruct p; cbn [weight_le] in *; lia.
Qed.

(** The invariant between round trips: what has been reported is what is no
    longer open. *)
Definition session_inv (c s : list item) (m : list rng) (h hn : list str) : Prop :=
  (forall id, In id h <-> exists x, In x c /\ ~ In x s /\ ~ openr zero_bound m x /\ it_id x = id) /\ NoDup h /\
  (forall id, In id hn <-> exists x, In x s /\ ~ In x c /\ ~ openr zero_bound m x /\ it_id x = id) /\ NoDup hn.

Lemma openr_dec lo m x : openr lo m x \/ ~ openr lo m x.
Proof.
  revert lo. induction m as [|[b p] m IH]; intro lo; cbn [openr]; [now right|].
  destruct (IH b) as [O|O]; [left; now right|].
  destruct (ilt_dec x b) as [L|L]; [|tauto].
  destruct (ilt_dec x lo) as [L'|L'].
  - right. intros [(_ & K & _)|K]; [exact (ilt_not_ile _ _ L' K)|contradiction].
  - apply not_ilt in L'. destruct p; [right; intros [(K & _)|K]; [congruence|contradiction]|left; left; split; [discriminate|tauto]..].
Qed.

Theorem session_loop_correct (c s : list item) : good c -> good s -> consistent c s -> fp_sound c s ->
  forall w fuel m hi h hn, (w < fuel)%nat ->
  covers c zero_bound m hi -> each (weight_le c s 2 w) zero_bound m -> session_inv c s m h hn ->
  exists H HN, session_loop sha fuel None None c s (message m) h hn = Ok (H, HN) /\
    (forall id, In id H <-> exists x, In x c /\ ~ In x s /\ it_id x = id) /\ NoDup H /\
    (forall id, In id HN <-> exists x, In x s /\ ~ In x c /\ it_id x = id) /\ NoDup HN.
Proof.
  intros GC GS HCO HFP. induction w as [w IHw] using lt_wf_ind; intros fuel m hi h hn HF CV HW (V1 & V2 & V3 & V4).
  destruct fuel as [|fuel]; [lia|]. cbn [session_loop].
  destruct (arec false s zero_bound false m) as [[o1 h1] hn1] eqn:E1.
  destruct (step_correct false s c GS (fp_sound_sym _ _ HFP) m zero_bound zero_bound false hi o1 h1 hn1 CV eq_refl ltac:(discriminate) E1)
    as (A1 & A2 & A3 & A4 & A5).
  rewrite (reconcile_refines false s c m hi o1 h1 hn1 GS GC CV E1 A1). cbn [andb obind].
  destruct A1 as (hi1 & CV1).
  destruct (arec true c zero_bound false o1) as [[o2 h2] hn2] eqn:E2.
  destruct (step_correct true c s GC HFP o1 zero_bound zero_bound false hi1 o2 h2 hn2 CV1 eq_refl ltac:(discriminate) E2)
    as (B1 & B2 & B3 & B4 & B5).
  rewrite (reconcile_refines true c s o1 hi1 o2 h2 hn2 GC GS CV1 E2 B1).
  destruct (client_reports c s (proj1 GC) (proj1 GS) HCO o1 zero_bound false hi1 o2 h2 hn2 CV1 E2) as ((R1 & R2) & R3 & R4).
  assert (DX : forall x, In x c -> ~ In x s -> differ c s x) by (unfold differ; tauto).
  assert (DY : forall x, In x s -> ~ In x c -> differ c s x) by (unfold differ; tauto).
  (* what is open after the exchange *)
  assert (OP : forall x, differ c s x -> (openr zero_bound m x <-> openr zero_bound o1 x)).
  { intros x D. split; intro O.
    - destruct (A3 x (proj1 (differ_sym c s x) D) O) as [[K _]|K]; [discriminate|exact K].
    - apply A2, O. }
  assert (CL : forall x, differ c s x -> (~ openr zero_bound o2 x <-> ~ openr zero_bound m x \/ listed zero_bound o1 x)).
  { intros x D. rewrite (OP x D). split.
    - intro N. destruct (openr_dec zero_bound o1 x) as [O|O]; [|now left]. right.
      destruct (B3 x D O) as [[_ K]|K]; [exact K|contradiction].
    - intros [N|L] O; destruct (B2 x O) as [K1 K2]; [contradiction|exact (K2 eq_refl L)]. }
  assert (NDAPP : forall (u v : list str), NoDup u -> NoDup v -> (forall i, In i u -> ~ In i v) -> NoDup (u ++ v)).
  { clear. intros u v Hu Hv D. induction Hu as [|x u N Hu IH]; [exact Hv|]. cbn [app]. constructor.
    - rewrite in_app_iff. intros [K|K]; [contradiction|]. exact (D x (or_introl eq_refl) K).
    - apply IH. intros i Hi. apply D. now right. }
  assert (INV : session_inv c s o2 (h ++ h2) (hn ++ hn2)).
  { split; [|split; [|split]].
    - intro id. rewrite in_app_iff, V1, R1. split.
      + intros [(x & X1 & X2 & X3 & X4)|(x & X1 & X2 & X3 & X4)]; exists x; repeat split; auto; apply CL; auto.
      + intros (x & X1 & X2 & X3 & X4). apply (CL x (DX x X1 X2)) in X3. destruct X3 as [X3|X3]; [left|right]; exists x; auto.
    - apply NDAPP; [exact V2|exact R2|]. intros id K1 K2. apply V1 in K1. apply R1 in K2.
      destruct K1 as (x & X1 & X2 & X3 & X4), K2 as (y & Y1 & Y2 & Y3 & Y4).
      assert (x = y) as <- by (apply HCO; [apply in_or_app; now left|apply in_or_app; now left|congruence]).
      apply X3. apply (OP x (DX x X1 X2)). now apply listed_open.
    - intro id. rewrite in_app_iff, V3, R3. split.
      + intros [(x & X1 & X2 & X3 & X4)|(x & X1 & X2 & X3 & X4)]; exists x; repeat split; auto; apply CL; auto.
      + intros (x & X1 & X2 & X3 & X4). apply (CL x (DY x X1 X2)) in X3. destruct X3 as [X3|X3]; [left|right]; exists x; auto.
    - apply NDAPP; [exact V4|exact R4|]. intros id K1 K2. apply V3 in K1. apply R3 in K2.
      destruct K1 as (x & X1 & X2 & X3 & X4), K2 as (y & Y1 & Y2 & Y3 & Y4).
      assert (x = y) as <- by (apply HCO; [apply in_or_app; now right|apply in_or_app; now right|congruence]).
      apply X3. apply (OP x (DY x X1 X2)). now apply listed_open. }
  assert (W1 : each (weight_le c s 2 (w - 1 - 1)) zero_bound o2).
  { apply B4. apply weight_swap. apply (A4 w). apply weight_swap. exact HW. }
  destruct o2 as [|r o2].
  - cbn [andb obind]. exists (h ++ h2), (hn ++ hn2). split; [reflexivity|].
    destruct INV as (I1 & I2 & I3 & I4). cbn [openr] in *. split; [|split; [exact I2|split; [|exact I4]]].
    + intro id. rewrite I1. split; intros (x & X); exists x; tauto.
    + intro id. rewrite I3. split; intros (x & X); exists x; tauto.
  - cbn [andb obind]. destruct B1 as (hi2 & CV2).
    assert (Hw : (0 < w)%nat).
    { destruct w as [|w]; [|lia]. exfalso. destruct B5 as [B5|(x & Hx & Nx)]; [discriminate|].
      apply Nx. exact (each_skip_nil c s 2 zero_bound (r :: o2) ltac:(lia) W1 x Hx). }
    apply (IHw (w - 1)%nat ltac:(lia) fuel (r :: o2) hi2); [lia|exact CV2| |exact INV].
    eapply each_impl; [|exact W1]. intros lo' b' p'. destruct p'; cbn [weight_le]; lia.
Qed.

(** Any pair of honest parties, any number of items: the session ends and the
    reports are exactly the difference. *)
Theorem session_correct (c s : list item) fuel : good c -> good s -> consistent c s -> fp_sound c s ->
  (length c + length s + 2 < fuel)%nat ->
  exists H HN, session sha fuel None None c s = Ok (H, HN) /\
    (forall id, In id H <-> exists x, In x c /\ ~ In x s /\ it_id x = id) /\ NoDup H /\
    (forall id, In id HN <-> exists x, In x s /\ ~ In x c /\ it_id x = id) /\ NoDup HN.
Proof.
  intros GC GS HCO HFP HF. unfold session.
  destruct (start_refines c GC) as [ES CV]. rewrite ES. cbn [obind].
  apply (session_loop_correct c s GC GS HCO HFP (length c + length s + 2) fuel _ infinite_bound); [exact HF|exact CV| |].
  - assert (LI := inside_length zero_bound infinite_bound c).
    unfold asplit. destruct (Nat.ltb_spec (length (inside zero_bound infinite_bound c)) (buckets * 2)) as [L|L].
    + cbn [each weight_le]. split; [lia|exact I].
    + assert (FS := asplit_loop_fps (length (inside zero_bound infinite_bound c)) infinite_bound buckets 0 (inside zero_bound infinite_bound c) zero_bound).
      eapply each_impl; [|exact FS]. cbv beta. intros lo' b' p' [f ->]. cbn [weight_le].
      pose proof (inside_length lo' b' c). pose proof (inside_length lo' b' s). lia.
  - assert (OA : forall x, In x c \/ In x s -> openr zero_bound (asplit (inside zero_bound infinite_bound c) infinite_bound) x).
    { intros x Hx. apply (openr_noskip c zero_bound _ infinite_bound x CV); [apply asplit_noskip| |].
      - destruct Hx; [apply (above_zero c)|apply (above_zero s)]; assumption.
      - destruct Hx; [apply (below_infinite c)|apply (below_infinite s)]; assumption. }
    split; [|split; [constructor|split; [|constructor]]].
    + intro id. split; [intros []|]. intros (x & X1 & X2 & X3 & _). exfalso. apply X3, OA. now left.
    + intro id. split; [intros []|]. intros (x & X1 & X2 & X3 & _). exfalso. apply X3, OA. now right.
Qed.

End Proto.
