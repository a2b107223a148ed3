(** Lemmas about the negentropy codec, bounds, accumulator and vector storage. *)
From Verif Require Import Base Nip19Model NegModel.
Import ListNotations.
Local Open Scope Z_scope.

(** ** The order on items *)

Definition ilt (a b : item) : Prop := item_compare a b = Lt.
Definition ile (a b : item) : Prop := item_compare a b <> Gt.

Lemma item_compare_refl a : item_compare a a = Eq.
Proof. unfold item_compare. rewrite Z.eqb_refl. apply scmp_refl. Qed.

Lemma item_compare_eq a b : item_compare a b = Eq <-> a = b.
Proof.
  split; [|intros ->; apply item_compare_refl].
  unfold item_compare. destruct a as [ta ia], b as [tb ib]; cbn [it_ts it_id].
  destruct (Z.eqb_spec ta tb) as [->|N].
  - intro E. apply scmp_eq in E. now subst.
  - intro E. apply Z.compare_eq in E. contradiction.
Qed.

Lemma item_compare_antisym a b : item_compare b a = CompOpp (item_compare a b).
Proof.
  unfold item_compare. rewrite (Z.eqb_sym (it_ts b) (it_ts a)).
  destruct (Z.eqb (it_ts a) (it_ts b)); [apply scmp_antisym|apply Z.compare_antisym].
Qed.

Lemma item_compare_lt_trans a b c : item_compare a b = Lt -> item_compare b c = Lt -> item_compare a c = Lt.
Proof.
  unfold item_compare.
  destruct (Z.eqb_spec (it_ts a) (it_ts b)) as [E1|E1], (Z.eqb_spec (it_ts b) (it_ts c)) as [E2|E2].
  - rewrite E1, E2, Z.eqb_refl. apply scmp_lt_trans.
  - rewrite E1. intros _ H. destruct (Z.eqb_spec (it_ts b) (it_ts c)); [contradiction|exact H].
  - rewrite <- E2. intros H _. destruct (Z.eqb_spec (it_ts a) (it_ts b)); [contradiction|exact H].
  - rewrite !Z.compare_lt_iff. intros H1 H2.
    destruct (Z.eqb_spec (it_ts a) (it_ts c)); [lia|]. apply Z.compare_lt_iff; lia.
Qed.

Lemma ile_cases a b : ile a b <-> ilt a b \/ a = b.
Proof.
  unfold ile, ilt. destruct (item_compare a b) eqn:E.
  - apply item_compare_eq in E. split; [now right|discriminate].
  - split; [now left|discriminate].
  - split; [contradiction|]. intros [H|H]; [discriminate|].
    subst. rewrite item_compare_refl in E. discriminate.
Qed.

Lemma ile_refl a : ile a a.
Proof. apply ile_cases. now right. Qed.
Lemma ilt_ile a b : ilt a b -> ile a b.
Proof. intro H. apply ile_cases. now left. Qed.
Lemma ilt_trans a b c : ilt a b -> ilt b c -> ilt a c.
Proof. apply item_compare_lt_trans. Qed.
Lemma ile_trans a b c : ile a b -> ile b c -> ile a c.
Proof.
  rewrite !ile_cases. intros [H| ->] [K| ->]; auto. left. eapply ilt_trans; eassumption.
Qed.
Lemma ilt_ile_trans a b c : ilt a b -> ile b c -> ilt a c.
Proof. rewrite ile_cases. intros H [K| <-]; auto. eapply ilt_trans; eassumption. Qed.
Lemma ile_ilt_trans a b c : ile a b -> ilt b c -> ilt a c.
Proof. rewrite ile_cases. intros [H| ->] K; auto. eapply ilt_trans; eassumption. Qed.
Lemma ilt_irrefl a : ~ ilt a a.
Proof. unfold ilt. rewrite item_compare_refl. discriminate. Qed.
Lemma not_ilt a b : ~ ilt a b <-> ile b a.
Proof.
  unfold ilt, ile. rewrite (item_compare_antisym a b). destruct (item_compare a b); cbn [CompOpp]; split; try discriminate; try contradiction; congruence.
Qed.
Lemma ilt_not_ile a b : ilt a b -> ~ ile b a.
Proof. intros H K. apply not_ilt in K. contradiction. Qed.
Lemma ilt_dec a b : {ilt a b} + {~ ilt a b}.
Proof. unfold ilt. destruct (item_compare a b); [right|left|right]; congruence. Qed.

Definition iltb (a b : item) : bool := match item_compare a b with Lt => true | _ => false end.
Lemma iltb_spec a b : iltb a b = true <-> ilt a b.
Proof. unfold iltb, ilt. destruct (item_compare a b); split; congruence. Qed.
Lemma iltb_false a b : iltb a b = false <-> ile b a.
Proof. rewrite <- not_ilt, <- iltb_spec. destruct (iltb a b); split; congruence. Qed.

Lemma ile_ts a b : ile a b -> it_ts a <= it_ts b.
Proof.
  unfold ile, item_compare. destruct (Z.eqb_spec (it_ts a) (it_ts b)); [lia|].
  intro H. apply Z.compare_le_iff. exact H.
Qed.

(** ** Varints *)

Definition digits_value (ds : list N) : N := fold_left (fun v d => (v * 128 + d)%N) ds 0%N.

Lemma fold_value ds : forall a, fold_left (fun v d => (v * 128 + d)%N) ds a = (a * 128 ^ N.of_nat (length ds) + digits_value ds)%N.
Proof.
  induction ds as [|d ds IH] using rev_ind; intro a.
  - cbn [fold_left length]. unfold digits_value. cbn [fold_left]. change (N.of_nat 0) with 0%N. rewrite N.pow_0_r. lia.
  - unfold digits_value. rewrite !fold_left_app. cbn [fold_left]. rewrite IH. fold (digits_value ds).
    rewrite app_length. cbn [length]. rewrite Nat2N.inj_add, N.pow_add_r. change (128 ^ N.of_nat 1)%N with 128%N. ring.
Qed.

Lemma varint_digits_spec : forall fuel n acc, (n < 128 ^ N.of_nat fuel)%N ->
  exists ds, varint_digits fuel n acc = Some (ds ++ acc) /\ Forall (fun d => (d < 128)%N) ds /\
             digits_value ds = n /\ (length ds <= fuel)%nat /\ (n <> 0%N -> ds <> []).
Proof.
  induction fuel as [|f IH]; intros n acc H.
  - exists []. cbn [varint_digits]. change (N.of_nat 0) with 0%N in H. rewrite N.pow_0_r in H.
    assert (n = 0%N) as -> by lia. cbn. repeat split; auto; try congruence; lia.
  - cbn [varint_digits]. destruct (N.eqb_spec n 0) as [->|N0].
    + exists []. cbn. repeat split; auto; try congruence; lia.
    + rewrite Nat2N.inj_succ, N.pow_succ_r' in H.
      destruct (IH (n / 128)%N ((n mod 128)%N :: acc)) as (ds & E & F & V & L & _).
      { apply N.div_lt_upper_bound; lia. }
      exists (ds ++ [(n mod 128)%N]). rewrite <- app_assoc. cbn [app]. split; [exact E|].
      split; [apply Forall_app; split; [exact F|constructor; [apply N.mod_lt; lia|constructor]]|].
      split.
      * unfold digits_value. rewrite fold_left_app. cbn [fold_left]. fold (digits_value ds). rewrite V.
        pose proof (N.div_mod n 128). lia.
      * split; [rewrite app_length; cbn [length]; lia|]. intros _ C. destruct ds; discriminate.
Qed.

Lemma varint_digits_none : forall fuel n acc, (128 ^ N.of_nat fuel <= n)%N -> varint_digits fuel n acc = None.
Proof.
  induction fuel as [|f IH]; intros n acc H.
  - cbn [varint_digits]. change (N.of_nat 0) with 0%N in H. rewrite N.pow_0_r in H.
    destruct (N.eqb_spec n 0); [lia|reflexivity].
  - cbn [varint_digits]. rewrite Nat2N.inj_succ, N.pow_succ_r' in H.
    destruct (N.eqb_spec n 0) as [->|_]; [pose proof (N.pow_nonzero 128 (N.of_nat f)); lia|].
    apply IH. apply N.div_le_lower_bound; lia.
Qed.

Lemma hex_encode_step c s : hex_encode (c :: s) = hex_byte c ++ hex_encode s.
Proof. reflexivity. Qed.

Lemma read_hex_byte_write c r : read_hex_byte (hex_byte c ++ r) = Ok (val c, r).
Proof.
  unfold hex_byte. cbn [app read_hex_byte].
  assert (V := val_lt c).
  rewrite !hex_val_digit; [|apply N.mod_lt; lia|apply N.div_lt_upper_bound; lia].
  do 2 f_equal. pose proof (N.div_mod (val c) 16). lia.
Qed.

Lemma wrap64_small z : - 9223372036854775808 <= z < 9223372036854775808 -> wrap64 z = z.
Proof. intro H. unfold wrap64. rewrite Z.mod_small; lia. Qed.

Lemma read_varint_loop_spec : forall ds fuel (res : N) rest,
  ds <> [] -> Forall (fun d => (d < 128)%N) ds -> (length ds <= fuel)%nat ->
  (res * 128 ^ N.of_nat (length ds) + digits_value ds < 2 ^ 63)%N ->
  read_varint_loop fuel (Z.of_N res) (hex_encode (map byte_of (mark ds)) ++ rest)
  = Ok (Z.of_N (res * 128 ^ N.of_nat (length ds) + digits_value ds), rest).
Proof.
  induction ds as [|d ds IH]; [congruence|]; intros fuel res rest _ F L Bd.
  destruct fuel as [|f]; [cbn [length] in L; lia|].
  apply Forall_cons_iff in F. destruct F as [Fd F].
  assert (D1 : digits_value (d :: ds) = (d * 128 ^ N.of_nat (length ds) + digits_value ds)%N).
  { unfold digits_value. cbn [fold_left]. rewrite fold_value. rewrite N.mul_0_l, N.add_0_l. reflexivity. }
  assert (D2 : (res * 128 ^ N.of_nat (length (d :: ds)) + digits_value (d :: ds)
                = (res * 128 + d) * 128 ^ N.of_nat (length ds) + digits_value ds)%N).
  { rewrite D1. cbn [length]. rewrite Nat2N.inj_succ, N.pow_succ_r'. ring. }
  assert (P1 : (1 <= 128 ^ N.of_nat (length ds))%N) by (pose proof (N.pow_nonzero 128 (N.of_nat (length ds))); lia).
  rewrite D2 in *.
  assert (R1 : (res * 128 + d < 2 ^ 63)%N) by nia.
  change (2 ^ 63)%N with 9223372036854775808%N in *.
  destruct ds as [|e ds].
  - cbn [mark map]. rewrite hex_encode_step. change (hex_encode []) with (@nil ascii). rewrite app_nil_r.
    cbn [read_varint_loop]. rewrite read_hex_byte_write. cbn [obind]. rewrite val_byte_of by lia.
    rewrite (N.mod_small d 128) by lia. destruct (N.ltb_spec d 128) as [_|?]; [|lia].
    rewrite wrap64_small by lia. cbn [length]. change (N.of_nat 0) with 0%N. rewrite N.pow_0_r.
    do 2 f_equal. unfold digits_value. cbn [fold_left]. lia.
  - change (mark (d :: e :: ds)) with ((d + 128)%N :: mark (e :: ds)). cbn [map]. rewrite hex_encode_step, <- app_assoc.
    cbn [read_varint_loop]. rewrite read_hex_byte_write. cbn [obind]. rewrite val_byte_of by lia.
    destruct (N.ltb_spec (d + 128) 128) as [?|_]; [lia|].
    replace ((d + 128) mod 128)%N with d.
    2:{ replace (d + 128)%N with (d + 1 * 128)%N by lia. rewrite N.mod_add by lia. rewrite N.mod_small; lia. }
    rewrite wrap64_small by lia.
    replace (Z.of_N res * 128 + Z.of_N d) with (Z.of_N (res * 128 + d)) by lia.
    apply IH; [discriminate|exact F|cbn [length] in *; lia|exact Bd].
Qed.

(** The text of a number, and the two facts used everywhere. *)
Definition vtext (n : Z) : str := match write_varint n with Ok s => s | _ => [] end.

Lemma mark_length ds : length (mark ds) = length ds.
Proof. induction ds as [|d [|e ds] IH]; try reflexivity. cbn [mark length] in *. rewrite IH. reflexivity. Qed.

Lemma varint_roundtrip n rest : 0 <= n < 2 ^ 56 ->
  write_varint n = Ok (vtext n) /\ read_varint (vtext n ++ rest) = Ok (n, rest).
Proof.
  intro H. unfold vtext, write_varint, encode_varint.
  destruct (Z.eqb_spec n 0) as [->|N0].
  - cbn [obind]. split; [reflexivity|]. cbn. reflexivity.
  - destruct (Z.ltb_spec n 0) as [?|_]; [lia|].
    destruct (varint_digits_spec 8 (Z.to_N n) []) as (ds & E & F & V & L & NE).
    { change (128 ^ N.of_nat 8)%N with (Z.to_N (2 ^ 56)). lia. }
    rewrite app_nil_r in E. rewrite E. cbn [obind]. split; [reflexivity|].
    assert (ND : ds <> []) by (apply NE; lia).
    unfold read_varint. change 0 with (Z.of_N 0) at 1.
    rewrite read_varint_loop_spec; [|exact ND|exact F| |].
    + rewrite N.mul_0_l, N.add_0_l, V. do 2 f_equal. lia.
    + rewrite app_length, hex_encode_length, map_length, mark_length. lia.
    + rewrite N.mul_0_l, N.add_0_l, V. change (2 ^ 63)%N with (Z.to_N (2 ^ 63)). lia.
Qed.

Lemma write_varint_big n : 2 ^ 56 <= n \/ n < 0 -> write_varint n = Panic.
Proof.
  intro H. unfold write_varint, encode_varint.
  destruct (Z.eqb_spec n 0) as [->|N0]; [lia|].
  destruct (Z.ltb_spec n 0) as [_|G]; [reflexivity|].
  rewrite varint_digits_none; [reflexivity|]. change (128 ^ N.of_nat 8)%N with (Z.to_N (2 ^ 56)). lia.
Qed.

(** ** Bounds *)

(** A bound that can be written: an id prefix of whole bytes, and a timestamp
    that is either the infinite one or fits a varint. *)
Definition bound_ok (b : item) : Prop :=
  Nat.Even (length (it_id b)) /\ (Z.of_nat (length (it_id b)) < 2 ^ 56) /\
  (it_ts b = max_ts \/ 0 <= it_ts b < 2 ^ 56 - 1).

Definition btext (last : Z) (b : item) : str :=
  (if it_ts b =? max_ts then vtext 0 else vtext (it_ts b - last + 1)) ++
  vtext (Z.of_nat (length (it_id b)) / 2) ++ it_id b.

Lemma bound_roundtrip last b rest : bound_ok b -> 0 <= last <= it_ts b ->
  write_bound last b = Ok (btext last b, it_ts b) /\
  read_bound last (btext last b ++ rest) = Ok (b, rest).
Proof.
  intros ((k & Hk) & Hl & Ht) HL.
  assert (Hn : 0 <= Z.of_nat (length (it_id b)) / 2 < 2 ^ 56).
  { split; [apply Z.div_pos; lia|]. apply Z.div_lt_upper_bound; lia. }
  assert (Hn2 : wrap64 (Z.of_nat (length (it_id b)) / 2 * 2) = Z.of_nat (length (it_id b))).
  { rewrite Hk in *. replace (Z.of_nat (2 * k) / 2) with (Z.of_nat k) by lia.
    rewrite wrap64_small; lia. }
  assert (RS : read_string (Z.of_nat (length (it_id b))) (it_id b ++ rest) = Ok (it_id b, rest)).
  { unfold read_string. destruct (Z.ltb_spec (Z.of_nat (length (it_id b))) 0) as [?|_]; [lia|].
    rewrite app_length. destruct (Z.ltb_spec (Z.of_nat (length (it_id b) + length rest)) (Z.of_nat (length (it_id b)))) as [?|_]; [lia|].
    rewrite Nat2Z.id. rewrite firstn_app, firstn_all, Nat.sub_diag, skipn_app, skipn_all, Nat.sub_diag. cbn [firstn skipn].
    rewrite app_nil_r. reflexivity. }
  destruct b as [ts id]; cbn [it_ts it_id] in *.
  unfold write_bound, write_timestamp, read_bound, read_timestamp, btext. cbn [it_ts it_id].
  destruct (Z.eqb_spec ts max_ts) as [->|NM].
  - split.
    + rewrite (proj1 (varint_roundtrip 0 [] ltac:(lia))). cbn [obind].
      rewrite (proj1 (varint_roundtrip _ [] Hn)). cbn [obind]. reflexivity.
    + rewrite <- !app_assoc. rewrite (proj2 (varint_roundtrip 0 _ ltac:(lia))). cbn [obind]. rewrite Z.eqb_refl. cbn [obind].
      rewrite (proj2 (varint_roundtrip _ _ Hn)). cbn [obind]. rewrite Hn2, RS. reflexivity.
  - destruct Ht as [Ht|Ht]; [contradiction|].
    assert (W1 : wrap64 (ts - last) = ts - last) by (apply wrap64_small; lia).
    assert (W2 : wrap64 (ts - last + 1) = ts - last + 1) by (apply wrap64_small; lia).
    assert (Hd : 0 <= ts - last + 1 < 2 ^ 56) by lia.
    rewrite W1, W2. split.
    + rewrite (proj1 (varint_roundtrip _ [] Hd)). cbn [obind].
      rewrite (proj1 (varint_roundtrip _ [] Hn)). cbn [obind]. reflexivity.
    + rewrite <- !app_assoc. rewrite (proj2 (varint_roundtrip _ _ Hd)). cbn [obind].
      destruct (Z.eqb_spec (ts - last + 1) 0) as [?|_]; [lia|]. cbn [obind].
      replace (ts - last + 1 - 1) with (ts - last) by lia. rewrite W1.
      replace (last + (ts - last)) with ts by lia. rewrite (wrap64_small ts) by lia.
      rewrite (proj2 (varint_roundtrip _ _ Hn)). cbn [obind]. rewrite Hn2, RS. reflexivity.
Qed.

(** ** Minimal bounds *)

Lemma scmp_firstn_le n c : scmp (firstn n c) c <> Gt.
Proof.
  revert c; induction n as [|n IH]; intros [|x c]; cbn [firstn scmp]; try discriminate.
  rewrite N.compare_refl. apply IH.
Qed.

Lemma scmp_firstn_lt : forall n p c, scmp p c = Lt -> firstn n p <> firstn n c -> scmp p (firstn n c) = Lt.
Proof.
  induction n as [|n IH]; intros p c H D; [cbn [firstn] in D; congruence|].
  destruct p as [|x p], c as [|y c]; cbn [scmp] in H; try discriminate; [reflexivity|].
  cbn [firstn] in *. cbn [scmp]. destruct (N.compare (val x) (val y)) eqn:E; try discriminate; auto.
  apply N.compare_eq in E. apply val_inj in E. subst y.
  apply IH; [exact H|]. congruence.
Qed.

Lemma shared_prefix_spec : forall n c p, (2 * n <= length c)%nat -> (2 * n <= length p)%nat ->
  exists k, shared_prefix n c p = Ok k /\ (k <= n)%nat /\
    firstn (2 * k) c = firstn (2 * k) p /\ ((k < n)%nat -> firstn (2 * (k + 1)) p <> firstn (2 * (k + 1)) c).
Proof.
  induction n as [|n IH]; intros c p Hc Hp.
  - exists O. cbn. repeat split; auto; lia.
  - destruct c as [|c1 [|c2 c]]; [cbn [length] in Hc; lia|cbn [length] in Hc; lia|].
    destruct p as [|p1 [|p2 p]]; [cbn [length] in Hp; lia|cbn [length] in Hp; lia|].
    cbn [shared_prefix]. unfold ceqb.
    destruct (Ascii.eqb_spec c1 p1) as [->|N1]; [destruct (Ascii.eqb_spec c2 p2) as [->|N2]|]; cbn [andb].
    + destruct (IH c p) as (k & E & L & F & D); [cbn [length] in *; lia..|].
      exists (S k). rewrite E. cbn [obind]. split; [reflexivity|]. split; [lia|]. split.
      * replace (2 * S k)%nat with (S (S (2 * k))) by lia. cbn [firstn]. rewrite F. reflexivity.
      * intro Hk. replace (2 * (S k + 1))%nat with (S (S (2 * (k + 1)))) by lia. cbn [firstn].
        intro C. injection C as C. apply (D ltac:(lia)). exact C.
    + exists O. repeat split; [lia|]. intros _ C. cbn in C. injection C as C. congruence.
    + exists O. repeat split; [lia|]. intros _ C. cbn in C. injection C as C. congruence.
Qed.

Lemma firstn_neq_mono {A} n m (a b : list A) : (n <= m)%nat -> firstn n a <> firstn n b -> firstn m a <> firstn m b.
Proof.
  intros L D C. apply D.
  replace n with (Nat.min n m) by lia. rewrite <- !firstn_firstn, C. reflexivity.
Qed.

Lemma minimal_bound_spec prev curr :
  length (it_id prev) = 64%nat -> length (it_id curr) = 64%nat ->
  ilt prev curr ->
  (it_ts prev = it_ts curr -> firstn 34 (it_id prev) <> firstn 34 (it_id curr)) ->
  exists b, get_minimal_bound prev curr = Ok b /\ ilt prev b /\ ile b curr /\
            it_ts b = it_ts curr /\ Nat.Even (length (it_id b)) /\ (length (it_id b) <= 64)%nat.
Proof.
  intros Lp Lc H D. unfold get_minimal_bound.
  destruct (Z.eqb_spec (it_ts curr) (it_ts prev)) as [E|E]; cbn [negb].
  - destruct (shared_prefix_spec 16 (it_id curr) (it_id prev)) as (k & Ek & Lk & _ & Dk); [lia..|].
    rewrite Ek. cbn [obind]. rewrite Lc.
    destruct (Nat.ltb_spec 64 ((k + 1) * 2)) as [?|_]; [lia|].
    eexists. split; [reflexivity|]. cbn [it_ts it_id].
    assert (DD : firstn ((k + 1) * 2) (it_id prev) <> firstn ((k + 1) * 2) (it_id curr)).
    { destruct (Nat.eq_dec k 16) as [->|NK]; [apply D; congruence|].
      rewrite (Nat.mul_comm (k + 1) 2). apply Dk. lia. }
    unfold ilt, item_compare in H. rewrite E, Z.eqb_refl in H.
    split; [|split; [|split; [reflexivity|]]].
    + unfold ilt, item_compare. cbn [it_ts it_id]. rewrite E, Z.eqb_refl. apply scmp_firstn_lt; assumption.
    + unfold ile, item_compare. cbn [it_ts it_id]. rewrite Z.eqb_refl. apply scmp_firstn_le.
    + rewrite firstn_length, Lc. rewrite Nat.min_l by lia. split; [exists (k + 1)%nat; lia|lia].
  - eexists. split; [reflexivity|]. cbn [it_ts it_id].
    unfold ilt, item_compare in H. destruct (Z.eqb_spec (it_ts prev) (it_ts curr)) as [?|_]; [congruence|].
    split; [|split; [|split; [reflexivity|split; [exists 0%nat; reflexivity|cbn [length]; lia]]]].
    + unfold ilt, item_compare. cbn [it_ts it_id]. destruct (Z.eqb_spec (it_ts prev) (it_ts curr)) as [?|_]; [congruence|]. exact H.
    + unfold ile, item_compare. cbn [it_ts it_id]. rewrite Z.eqb_refl. destruct (it_id curr); discriminate.
Qed.

(** ** The accumulator *)

(** The number a little-endian byte string stands for. *)
Fixpoint le_value (s : str) : N :=
  match s with [] => 0%N | c :: r => (val c + 256 * le_value r)%N end.

Lemma le_value_bound s : (le_value s < 256 ^ N.of_nat (length s))%N.
Proof.
  induction s as [|c s IH]; [cbn; lia|].
  cbn [le_value length]. rewrite Nat2N.inj_succ, N.pow_succ_r'. pose proof (val_lt c). lia.
Qed.

Lemma word_bytes_value w : (w < 4294967296)%N -> le_value (word_bytes w) = w.
Proof.
  intro H. unfold word_bytes. cbn [le_value].
  rewrite !val_byte_of by (apply N.mod_lt; lia).
  replace (w / 65536)%N with (w / 256 / 256)%N by (rewrite N.div_div; lia).
  replace (w / 16777216)%N with (w / 256 / 256 / 256)%N by (rewrite !N.div_div; lia).
  assert (H3 : (w / 256 / 256 / 256 < 256)%N) by (rewrite !N.div_div by lia; apply N.div_lt_upper_bound; lia).
  rewrite (N.mod_small (w / 256 / 256 / 256)) by lia.
  pose proof (N.div_mod w 256). pose proof (N.div_mod (w / 256) 256). pose proof (N.div_mod (w / 256 / 256) 256). lia.
Qed.

(** The 32 bit words of a byte string. *)
Fixpoint words (s : str) : list N :=
  match s with
  | a :: b :: c :: d :: r => word_of a b c d :: words r
  | _ => []
  end.

Lemma word_of_value a b c d r : le_value (a :: b :: c :: d :: r) = (word_of a b c d + 4294967296 * le_value r)%N.
Proof. unfold word_of. cbn [le_value]. lia. Qed.

Lemma word_of_lt a b c d : (word_of a b c d < 4294967296)%N.
Proof. unfold word_of. pose proof (val_lt a). pose proof (val_lt b). pose proof (val_lt c). pose proof (val_lt d). lia. Qed.

Lemma app_word_value w r : (w < 4294967296)%N -> le_value (word_bytes w ++ r) = (w + 4294967296 * le_value r)%N.
Proof.
  intro H. rewrite <- (word_bytes_value w H) at 2. unfold word_bytes. cbn [app]. cbn [le_value]. lia.
Qed.

Lemma add_words_spec : forall n acc other carry,
  length acc = (4 * n)%nat -> length other = (4 * n)%nat -> (carry <= 1)%N ->
  Forall (fun w => w <> 4294967295%N) (words other) ->
  length (add_words carry acc other) = (4 * n)%nat /\
  le_value (add_words carry acc other) = ((le_value acc + le_value other + carry) mod (4294967296 ^ N.of_nat n))%N.
Proof.
  induction n as [|n IH]; intros acc other carry La Lo Hc F.
  - destruct acc; [|discriminate]. destruct other; [|discriminate]. cbn [add_words le_value length].
    change (N.of_nat 0) with 0%N. rewrite N.pow_0_r, N.mod_1_r. auto.
  - destruct acc as [|a0 [|a1 [|a2 [|a3 acc]]]]; try (cbn [length] in La; lia).
    destruct other as [|o0 [|o1 [|o2 [|o3 other]]]]; try (cbn [length] in Lo; lia).
    cbn [words] in F. apply Forall_cons_iff in F. destruct F as [Fo F].
    cbn [add_words]. rewrite !word_of_value.
    set (x := word_of a0 a1 a2 a3) in *. set (y := word_of o0 o1 o2 o3) in *.
    assert (Hx : (x < 4294967296)%N) by apply word_of_lt. assert (Hy : (y < 4294967296)%N) by apply word_of_lt.
    set (next := ((x + carry + y) mod 4294967296)%N).
    set (c' := (if (next <? x)%N || (next <? y)%N then 1%N else 0%N)).
    assert (K : (x + y + carry = next + 4294967296 * c')%N /\ (next < 4294967296)%N /\ (c' <= 1)%N).
    { unfold c'. clearbody x y. destruct (N.ltb_spec (x + carry + y) 4294967296) as [S|S].
      - assert (next = x + carry + y)%N as -> by (unfold next; rewrite N.mod_small; lia).
        destruct (N.ltb_spec (x + carry + y) x); [lia|]. destruct (N.ltb_spec (x + carry + y) y); [lia|]. cbn [orb]. lia.
      - assert (next = x + carry + y - 4294967296)%N as ->.
        { unfold next. replace (x + carry + y)%N with ((x + carry + y - 4294967296) + 1 * 4294967296)%N by lia.
          rewrite N.mod_add by lia. rewrite N.mod_small; lia. }
        destruct (N.ltb_spec (x + carry + y - 4294967296) x); cbn [orb]; [lia|].
        destruct (N.ltb_spec (x + carry + y - 4294967296) y); lia. }
    destruct K as (K1 & K2 & K3). clearbody next c'.
    destruct (IH acc other c') as [I1 I2]; [cbn [length] in *; lia|cbn [length] in *; lia|exact K3|exact F|].
    split.
    + rewrite app_length, I1. cbn [word_bytes length]. lia.
    + rewrite app_word_value by exact K2. rewrite I2.
      rewrite Nat2N.inj_succ, N.pow_succ_r'.
      set (M := (4294967296 ^ N.of_nat n)%N). assert (HM : M <> 0%N) by (apply N.pow_nonzero; lia).
      set (A := le_value acc). set (O := le_value other).
      replace (x + 4294967296 * A + (y + 4294967296 * O) + carry)%N with (next + 4294967296 * (A + O + c'))%N by lia.
      rewrite N.mod_mul_r by (try exact HM; lia).
      replace (next + 4294967296 * (A + O + c'))%N with (next + (A + O + c') * 4294967296)%N by lia.
      rewrite N.mod_add by lia. rewrite (N.mod_small next) by exact K2.
      rewrite N.div_add by lia. rewrite (N.div_small next) by exact K2. rewrite N.add_0_l. reflexivity.
Qed.

Lemma add_bytes_spec acc other :
  length acc = 32%nat -> length other = 32%nat -> Forall (fun w => w <> 4294967295%N) (words other) ->
  length (add_bytes acc other) = 32%nat /\
  le_value (add_bytes acc other) = ((le_value acc + le_value other) mod 2 ^ 256)%N.
Proof.
  intros La Lo F. destruct (add_words_spec 8 acc other 0 La Lo ltac:(lia) F) as [E1 E2].
  split; [exact E1|]. unfold add_bytes. rewrite E2, N.add_0_r. reflexivity.
Qed.

Lemma le_value_inj : forall a b, length a = length b -> le_value a = le_value b -> a = b.
Proof.
  induction a as [|x a IH]; intros [|y b] L E; try discriminate; [reflexivity|].
  cbn [le_value length] in *. pose proof (val_lt x). pose proof (val_lt y).
  assert (val x = val y) as V by lia. apply val_inj in V. subst y. f_equal. apply IH; lia.
Qed.

(** ** Sorted vectors *)

Definition isorted (l : list item) : Prop := StronglySorted ilt l.

Lemma insert_sorted_perm x l : Permutation (x :: l) (insert_sorted x l).
Proof.
  induction l as [|y l IH]; cbn [insert_sorted]; [apply Permutation_refl|].
  destruct (item_compare x y); try apply Permutation_refl.
  eapply perm_trans; [apply perm_swap|]. apply perm_skip. exact IH.
Qed.

Lemma insert_sorted_sorted x l : StronglySorted ile l -> StronglySorted ile (insert_sorted x l).
Proof.
  induction l as [|y l IH]; cbn [insert_sorted]; intro H; [repeat constructor|].
  apply StronglySorted_inv in H. destruct H as [H F].
  destruct (item_compare x y) eqn:E.
  - constructor; [constructor; assumption|]. assert (ile x y) as K by (unfold ile; congruence).
    constructor; [exact K|]. eapply Forall_impl; [|exact F]. intros z Hz. eapply ile_trans; eassumption.
  - constructor; [constructor; assumption|]. assert (ile x y) as K by (unfold ile; congruence).
    constructor; [exact K|]. eapply Forall_impl; [|exact F]. intros z Hz. eapply ile_trans; eassumption.
  - constructor; [apply IH, H|]. eapply Permutation_Forall; [apply insert_sorted_perm|].
    constructor; [|exact F]. apply ilt_ile. unfold ilt. rewrite item_compare_antisym, E. reflexivity.
Qed.

Lemma seal_perm l : Permutation l (seal l).
Proof.
  induction l as [|x l IH]; [apply Permutation_refl|]. cbn [seal fold_right].
  eapply perm_trans; [apply perm_skip; exact IH|]. apply insert_sorted_perm.
Qed.

Lemma seal_sorted l : StronglySorted ile (seal l).
Proof. induction l as [|x l IH]; [constructor|]. cbn [seal fold_right]. apply insert_sorted_sorted, IH. Qed.

Lemma sorted_unique : forall l l', StronglySorted ile l -> StronglySorted ile l' -> Permutation l l' -> l = l'.
Proof.
  induction l as [|a l IH]; intros l' H H' P.
  - apply Permutation_nil in P. now subst.
  - destruct l' as [|b l']; [apply Permutation_sym, Permutation_nil in P; discriminate|].
    apply StronglySorted_inv in H. destruct H as [H F]. apply StronglySorted_inv in H'. destruct H' as [H' F'].
    assert (a = b) as ->.
    { assert (In a (b :: l')) as [Ha|Ha] by (eapply Permutation_in; [exact P|now left]); [now symmetry|].
      assert (In b (a :: l)) as [Hb|Hb] by (eapply Permutation_in; [apply Permutation_sym, P|now left]); [assumption|].
      rewrite Forall_forall in F, F'. specialize (F _ Hb). specialize (F' _ Ha).
      apply ile_cases in F. destruct F as [F|F]; [|assumption]. exfalso. exact (ilt_not_ile _ _ F F'). }
    f_equal. apply IH; [assumption..|]. eapply Permutation_cons_inv; exact P.
Qed.

Lemma StronglySorted_nth {A} (R : A -> A -> Prop) l i j x y :
  StronglySorted R l -> (i < j)%nat -> nth_error l i = Some x -> nth_error l j = Some y -> R x y.
Proof.
  intro H. revert i j. induction H as [|a l H IH F]; intros i j L Ei Ej; [destruct i; discriminate|].
  destruct j as [|j]; [lia|]. cbn [nth_error] in Ej. destruct i as [|i].
  - cbn [nth_error] in Ei. injection Ei as <-. rewrite Forall_forall in F. apply F. eapply nth_error_In; exact Ej.
  - cbn [nth_error] in Ei. apply (IH i j); [lia|assumption..].
Qed.

(** Binary search on a list sorted by [ile]: everything before the result is
    below the target, nothing from it on is. *)
Lemma bsearch_spec x target : StronglySorted ile x -> forall fuel i j,
  (j - i <= fuel)%nat -> (i <= j)%nat -> (j <= length x)%nat ->
  (forall k y, (k < i)%nat -> nth_error x k = Some y -> ilt y target) ->
  (forall k y, (j <= k)%nat -> nth_error x k = Some y -> ile target y) ->
  let r := bsearch fuel x target i j in
  (r <= length x)%nat /\
  (forall k y, (k < r)%nat -> nth_error x k = Some y -> ilt y target) /\
  (forall k y, (r <= k)%nat -> nth_error x k = Some y -> ile target y).
Proof.
  intro HS. induction fuel as [|f IH]; intros i j Hf Hij Hj H1 H2.
  - cbn [bsearch]. assert (i = j) as -> by lia. auto.
  - cbn [bsearch]. destruct (Nat.ltb_spec i j) as [L|L]; [|assert (i = j) as -> by lia; auto].
    set (h := ((i + j) / 2)%nat). assert (Hh : (i <= h < j)%nat).
    { unfold h. split; [apply Nat.div_le_lower_bound; lia|apply Nat.div_lt_upper_bound; lia]. }
    clearbody h.
    destruct (nth_error x h) as [y|] eqn:E.
    2:{ apply nth_error_None in E. lia. }
    assert (G1 : ilt y target -> forall k z, (k < h + 1)%nat -> nth_error x k = Some z -> ilt z target).
    { intros C k z Hk Ez. destruct (Nat.eq_dec k h) as [->|Nk]; [congruence|].
      eapply ile_ilt_trans; [|exact C]. apply (StronglySorted_nth ile x k h); [exact HS|lia|assumption..]. }
    assert (G2 : ile target y -> forall k z, (h <= k)%nat -> nth_error x k = Some z -> ile target z).
    { intros C k z Hk Ez. destruct (Nat.eq_dec k h) as [->|Nk]; [congruence|].
      eapply ile_trans; [exact C|]. apply (StronglySorted_nth ile x h k); [exact HS|lia|assumption..]. }
    destruct (item_compare y target) eqn:C.
    + apply IH; try lia; [exact H1|]. apply G2. apply not_ilt. unfold ilt. congruence.
    + apply IH; try lia; [|exact H2]. apply G1. exact C.
    + apply IH; try lia; [exact H1|]. apply G2. apply not_ilt. unfold ilt. congruence.
Qed.

Lemma isorted_ile l : isorted l -> StronglySorted ile l.
Proof.
  intro H. induction H as [|a l H IH F]; constructor; [exact IH|].
  eapply Forall_impl; [|exact F]. intros; now apply ilt_ile.
Qed.

Lemma StronglySorted_firstn {A} (R : A -> A -> Prop) n l : StronglySorted R l -> StronglySorted R (firstn n l).
Proof.
  intro H. revert n. induction H as [|a l H IH F]; intros [|n]; cbn [firstn]; constructor; auto.
  rewrite Forall_forall in *. intros x Hx. apply F. rewrite <- (firstn_skipn n l). apply in_or_app. now left.
Qed.

Lemma StronglySorted_skipn {A} (R : A -> A -> Prop) n l : StronglySorted R l -> StronglySorted R (skipn n l).
Proof.
  intro H. revert n. induction H as [|a l H IH F]; intros [|n]; cbn [skipn]; auto; constructor; auto.
Qed.

Lemma StronglySorted_range l i j : StronglySorted ile l -> StronglySorted ile (range l i j).
Proof. intro H. unfold range. apply StronglySorted_firstn, StronglySorted_skipn, H. Qed.

Lemma nth_error_skipn {A} (l : list A) n k : nth_error (skipn n l) k = nth_error l (n + k).
Proof. revert l; induction n as [|n IH]; intros [|x l]; cbn [skipn]; try reflexivity; [now destruct k|]. apply IH. Qed.

Lemma nth_error_range l i j k : (i + k < j)%nat -> nth_error (range l i j) k = nth_error l (i + k).
Proof.
  intro H. unfold range. rewrite <- nth_error_skipn.
  generalize (skipn i l). intro m. clear l. assert (k < j - i)%nat as L by lia. clear H. revert L.
  generalize (j - i)%nat. intro n. revert m k. induction n as [|n IH]; intros m k L; [lia|].
  destruct m as [|x m], k as [|k]; try reflexivity. cbn. apply IH. lia.
Qed.

Lemma range_length l i j : (j <= length l)%nat -> length (range l i j) = (j - i)%nat.
Proof. intro H. unfold range. rewrite firstn_length, skipn_length. lia. Qed.

Lemma find_lower_bound_spec l begin end_ b :
  StronglySorted ile l -> (begin <= end_ <= length l)%nat ->
  let r := find_lower_bound l begin end_ b in
  (begin <= r <= end_)%nat /\
  (forall k y, (begin <= k < r)%nat -> nth_error l k = Some y -> ilt y b) /\
  (forall k y, (r <= k < end_)%nat -> nth_error l k = Some y -> ile b y).
Proof.
  intros HS HL. unfold find_lower_bound.
  assert (HR := StronglySorted_range l begin end_ HS).
  assert (LR := range_length l begin end_ (proj2 HL)).
  destruct (bsearch_spec _ b HR (length (range l begin end_)) 0 (length (range l begin end_))) as (R1 & R2 & R3).
  - lia. - lia. - lia. - intros; lia.
  - intros k y Hk E. assert (nth_error (range l begin end_) k <> None) as C by congruence.
    apply nth_error_Some in C. lia.
  - split; [lia|]. split.
    + intros k y Hk E. apply (R2 (k - begin)%nat y); [lia|]. rewrite nth_error_range by lia.
      replace (begin + (k - begin))%nat with k by lia. exact E.
    + intros k y Hk E. apply (R3 (k - begin)%nat y); [lia|]. rewrite nth_error_range by lia.
      replace (begin + (k - begin))%nat with k by lia. exact E.
Qed.
