(** C36 - C42: set reconciliation. *)
From Verif Require Import Base JsonSpec EventModel TagsModel FilterModel JLexModel JLexProofs JsonFilterProofs EnvelopeModel EnvelopeProofs Props_Json
  Nip19Model Nip19Proofs NegModel NegProofs NegProtocol NegEnvModel.
From Coq Require Import Permutation Sorted.
Import ListNotations.
Local Open Scope Z_scope.

(** ** Order of items, stated on its own: by timestamp, then by the bytes of the id. *)
Inductive lex_lt : str -> str -> Prop :=
| lex_nil c t : lex_lt [] (c :: t)
| lex_here a b s t : (val a < val b)%N -> lex_lt (a :: s) (b :: t)
| lex_next a s t : lex_lt s t -> lex_lt (a :: s) (a :: t).
Definition before (a b : item) : Prop := it_ts a < it_ts b \/ it_ts a = it_ts b /\ lex_lt (it_id a) (it_id b).
Definition upto (a b : item) : Prop := before a b \/ a = b.

Lemma scmp_lex : forall s t, scmp s t = Lt <-> lex_lt s t.
Proof.
  induction s as [|a s IH]; intros [|b t]; cbn [scmp]; split; intro H; try discriminate; try (inversion H; fail).
  - constructor.
  - reflexivity.
  - fold (val a) in H. fold (val b) in H. destruct (N.compare_spec (val a) (val b)) as [E|E|E]; try discriminate.
    + apply val_inj in E. subst b. apply lex_next, IH, H.
    + apply lex_here, E.
  - fold (val a). fold (val b). inversion H as [|? ? ? ? L|? ? ? L]; subst.
    + apply N.compare_lt_iff in L. rewrite L. reflexivity.
    + rewrite N.compare_refl. apply IH, L.
Qed.
Lemma ilt_before a b : ilt a b <-> before a b.
Proof.
  unfold ilt, before, item_compare. destruct (Z.eqb_spec (it_ts a) (it_ts b)) as [E|E].
  - rewrite scmp_lex. intuition lia.
  - rewrite Z.compare_lt_iff. intuition lia.
Qed.
Lemma ile_upto a b : ile a b <-> upto a b.
Proof. unfold upto. rewrite ile_cases, ilt_before. reflexivity. Qed.

(** ** C36 *)
(** Every number below 2^56 is written and read back, leaving the rest of the message. *)
Theorem C36_varint_round_trip_partial n rest : 0 <= n < 2 ^ 56 ->
  exists t, write_varint n = Ok t /\ read_varint (t ++ rest) = Ok (n, rest).
Proof. intro H. destruct (varint_roundtrip n rest H) as [W R]. exists (vtext n). auto. Qed.
Print Assumptions C36_varint_round_trip_partial.

Example C36_varint_example : exists t, write_varint 1700000000 = Ok t /\ read_varint (t ++ B "zz") = Ok (1700000000, B "zz").
Proof. eexists. split; [vm_compute; reflexivity|]. vm_compute. reflexivity. Qed.

(** Two numbers with the same encoding are equal, also when one encoding starts the other. *)
Theorem C36_varint_prefix_free n m t r : 0 <= n < 2 ^ 56 -> 0 <= m < 2 ^ 56 ->
  write_varint n = Ok t -> write_varint m = Ok (t ++ r) -> n = m /\ r = [].
Proof.
  intros Hn Hm W W'. destruct (varint_roundtrip n r Hn) as [A A']. destruct (varint_roundtrip m [] Hm) as [C C'].
  rewrite A in W. injection W as <-. rewrite C in W'. injection W' as E. rewrite app_nil_r in C'. rewrite E, A' in C'.
  injection C' as -> ->. auto.
Qed.
Print Assumptions C36_varint_prefix_free.
Example C36_prefix_example : exists t, write_varint 300 = Ok t /\ write_varint 300 = Ok (t ++ []) /\ length t = 4%nat.
Proof. eexists. split; [vm_compute; reflexivity|]. vm_compute. auto. Qed.

(** The code claims all of int: from 2^56 on the eight byte buffer overflows. *)
Theorem C36_varint_round_trip_refuted : exists n, 0 <= n < 2 ^ 64 /\ write_varint n = Panic.
Proof. exists (2 ^ 56). split; [lia|]. vm_compute. reflexivity. Qed.
Print Assumptions C36_varint_round_trip_refuted.

(** ... for every such number. *)
Theorem C36_varint_overflow n : 2 ^ 56 <= n \/ n < 0 -> write_varint n = Panic.
Proof. apply write_varint_big. Qed.
Print Assumptions C36_varint_overflow.
Example C36_overflow_example : 2 ^ 56 <= 2 ^ 63 - 1. Proof. lia. Qed.

(** Any text is read as a number or refused, never a crash; it is refused at the first pair that is not two hex digits, or at its end. *)
Theorem C36_varint_any_text r : (exists n rest, read_varint r = Ok (n, rest)) \/ read_varint r = Err.
Proof.
  unfold read_varint. assert (G : forall fuel res r, (exists n rest, read_varint_loop fuel res r = Ok (n, rest)) \/ read_varint_loop fuel res r = Err); [|apply G].
  induction fuel as [|fuel IH]; intros res t; [right; reflexivity|]. cbn [read_varint_loop]. unfold read_hex_byte. destruct t as [|a [|b t]]; [right; reflexivity..|]. destruct (hex_val a) as [x|]; [|right; reflexivity]. destruct (hex_val b) as [y|]; [|right; reflexivity]. cbn [obind].
  destruct ((16 * x + y) <? 128)%N; [left; eauto|apply IH].
Qed.
Print Assumptions C36_varint_any_text.
Theorem C36_varint_refused a b t : hex_val a = None \/ hex_val b = None -> read_varint (a :: b :: t) = Err /\ read_varint [a] = Err /\ read_varint [] = Err.
Proof.
  intro H. unfold read_varint. cbn [length read_varint_loop read_hex_byte]. split; [|split; reflexivity]. destruct (hex_val a) as [x|]; [|reflexivity]. destruct (hex_val b) as [y|]; [|reflexivity]. destruct H; discriminate.
Qed.
Print Assumptions C36_varint_refused.
Example C36_varint_refused_example : read_varint (B "8g") = Err /\ read_varint (B "818z") = Err /\ read_varint (B "8101") = Ok (129, []).
Proof. vm_compute. repeat split. Qed.

(** A sequence of bounds, with the delta state passed along as writeBound and readBound do. *)
Fixpoint write_bounds (last : Z) (bs : list item) : outcome str :=
  match bs with
  | [] => Ok []
  | b :: bs' => do (t, last') <- write_bound last b; do t' <- write_bounds last' bs'; Ok (t ++ t')
  end.
Fixpoint read_bounds (k : nat) (last : Z) (r : str) : outcome (list item * str) :=
  match k with
  | O => Ok ([], r)
  | S k' => do (b, r1) <- read_bound last r; do (bs, r2) <- read_bounds k' (it_ts b) r1; Ok (b :: bs, r2)
  end.
Fixpoint ascending (last : Z) (bs : list item) : Prop :=
  match bs with [] => True | b :: bs' => last <= it_ts b /\ ascending (it_ts b) bs' end.

(** Timestamps from 0 to 2^56-2 or the infinite one, id prefixes of whole bytes. *)
Theorem C36_bounds_round_trip_partial bs : forall last rest,
  Forall (fun b => Nat.Even (length (it_id b)) /\ Z.of_nat (length (it_id b)) < 2 ^ 56 /\ (it_ts b = 2 ^ 63 - 1 \/ it_ts b < 2 ^ 56 - 1)) bs ->
  0 <= last -> ascending last bs ->
  exists t, write_bounds last bs = Ok t /\ read_bounds (length bs) last (t ++ rest) = Ok (bs, rest).
Proof.
  induction bs as [|b bs IH]; intros last rest F L A; [exists []; auto|].
  apply Forall_cons_iff in F. destruct F as [(E & S & T) F]. destruct A as [A1 A2].
  assert (K : bound_ok b). { split; [exact E|]. split; [exact S|]. destruct T as [T|T]; [left; exact T|right; lia]. }
  destruct (IH (it_ts b) rest F ltac:(lia) A2) as (t & W & R).
  destruct (bound_roundtrip last b (t ++ rest) K ltac:(lia)) as [BW BR].
  exists (btext last b ++ t). cbn [write_bounds read_bounds length]. rewrite BW. cbn [obind]. rewrite W. cbn [obind].
  split; [reflexivity|]. rewrite <- app_assoc, BR. cbn [obind]. rewrite R. reflexivity.
Qed.
Print Assumptions C36_bounds_round_trip_partial.
Example C36_bounds_example :
  let bs := [mkItem 5 (B "ab"); mkItem 5 (B "abcd"); mkItem 1700000000 []; infinite_bound] in
  ascending 0 bs /\ match write_bounds 0 bs with Ok t => read_bounds 4 0 (t ++ B "x") = Ok (bs, B "x") | _ => False end.
Proof. split; [cbn; unfold max_ts; lia|]. vm_compute. reflexivity. Qed.

(** Timestamps are signed in the code: -1 is written like the infinite one, -2 crashes the writer, and so does 2^56-1. *)
Theorem C36_bounds_round_trip_refuted :
  (exists b t, write_bounds 0 [b] = Ok t /\ read_bounds 1 0 t = Ok ([infinite_bound], []) /\ b <> infinite_bound) /\
  (exists b, it_ts b = -2 /\ write_bounds 0 [b] = Panic) /\
  (exists b, it_ts b = 2 ^ 56 - 1 /\ write_bounds 0 [b] = Panic).
Proof.
  split; [|split].
  - exists (mkItem (-1) []). eexists. split; [vm_compute; reflexivity|]. split; [vm_compute; reflexivity|discriminate].
  - exists (mkItem (-2) []). split; [reflexivity|vm_compute; reflexivity].
  - exists (mkItem (2 ^ 56 - 1) []). split; [reflexivity|vm_compute; reflexivity].
Qed.
Print Assumptions C36_bounds_round_trip_refuted.

(** ** C37 *)
Theorem C37_minimal_bound_partial prev curr :
  length (it_id prev) = 64%nat -> length (it_id curr) = 64%nat -> before prev curr ->
  (it_ts prev = it_ts curr -> firstn 34 (it_id prev) <> firstn 34 (it_id curr)) ->
  exists b, get_minimal_bound prev curr = Ok b /\ before prev b /\ upto b curr.
Proof.
  intros Lp Lc H D. apply ilt_before in H. destruct (minimal_bound_spec prev curr Lp Lc H D) as (b & E & H1 & H2 & _).
  exists b. rewrite <- ilt_before, <- ile_upto. auto.
Qed.
Print Assumptions C37_minimal_bound_partial.

(** When the timestamps differ nothing is asked of the ids. *)
Theorem C37_different_times prev curr : it_ts prev < it_ts curr ->
  get_minimal_bound prev curr = Ok (mkItem (it_ts curr) []) /\ before prev (mkItem (it_ts curr) []) /\ upto (mkItem (it_ts curr) []) curr.
Proof.
  intro H. unfold get_minimal_bound. destruct (Z.eqb_spec (it_ts curr) (it_ts prev)) as [E|E]; [lia|]. cbn [negb].
  split; [reflexivity|]. split; [left; exact H|]. destruct curr as [t [|c id]]; [right; reflexivity|left; right]. split; [reflexivity|constructor].
Qed.
Print Assumptions C37_different_times.

Definition id_of (hd : str) : str := hd ++ repeat "0"%char (64 - length hd).
Example C37_example : exists b, get_minimal_bound (mkItem 7 (id_of (B "aa01"))) (mkItem 7 (id_of (B "aa02"))) = Ok b /\ b = mkItem 7 (B "aa02") /\
  firstn 34 (id_of (B "aa01")) <> firstn 34 (id_of (B "aa02")).
Proof. eexists. split; [vm_compute; reflexivity|]. split; [reflexivity|]. vm_compute. discriminate. Qed.

(** Only sixteen bytes are compared: two ids that agree on their first seventeen get a bound that is not above the first,
    which puts both items on the same side. *)
Theorem C37_minimal_bound_refuted : exists prev curr b,
  length (it_id prev) = 64%nat /\ length (it_id curr) = 64%nat /\ before prev curr /\
  get_minimal_bound prev curr = Ok b /\ before b prev.
Proof.
  exists (mkItem 7 (repeat "a"%char 62 ++ B "00")), (mkItem 7 (repeat "a"%char 62 ++ B "01")), (mkItem 7 (repeat "a"%char 34)).
  split; [reflexivity|]. split; [reflexivity|]. split; [apply ilt_before; vm_compute; reflexivity|].
  split; [vm_compute; reflexivity|]. apply ilt_before. vm_compute. reflexivity.
Qed.
Print Assumptions C37_minimal_bound_refuted.

(** ** C38 *)
(** The number whose little-endian bytes are [s]. *)
Fixpoint number (s : str) : N := match s with [] => 0%N | c :: r => (val c + 256 * number r)%N end.
Fixpoint total (l : list str) : N := match l with [] => 0%N | x :: r => (number x + total r)%N end.
Definition plain_words (x : str) : Prop := length x = 32%nat /\ Forall (fun w => w <> 0xFFFFFFFF%N) (words x).
(** The items' ids are the hex of the byte strings [xs]. *)
Definition with_ids (l : list item) (xs : list str) : Prop := Forall2 (fun it x => it_id it = hex_encode x /\ plain_words x) l xs.

Lemma number_le s : number s = le_value s. Proof. induction s as [|c s IH]; [reflexivity|]. cbn [number le_value]. rewrite IH. reflexivity. Qed.

Lemma accumulate_spec l xs : with_ids l xs -> forall tmp acc, length tmp = 32%nat -> length acc = 32%nat ->
  length (accumulate tmp acc l) = 32%nat /\ number (accumulate tmp acc l) = ((number acc + total xs) mod 2 ^ 256)%N.
Proof.
  induction 1 as [|it x l xs [E [P1 P2]] F IH]; intros tmp acc Lt La; cbn [accumulate total].
  - split; [exact La|]. rewrite N.add_0_r, N.mod_small; [reflexivity|]. rewrite number_le. pose proof (le_value_bound acc) as B. rewrite La in B. exact B.
  - assert (D : decode_into tmp (it_id it) = x).
    { unfold decode_into. rewrite E, (hex_prefix_decode _ _ (hex_decode_encode x)). rewrite skipn_all2; [apply app_nil_r|]. apply Nat.eq_le_incl. congruence. }
    rewrite D. destruct (add_bytes_spec acc x La P1 P2) as [A1 A2].
    destruct (IH x (add_bytes acc x) P1 A1) as [I1 I2]. split; [exact I1|]. rewrite I2. rewrite !number_le, A2.
    rewrite N.add_mod_idemp_l by (vm_compute; discriminate). rewrite N.add_assoc. reflexivity.
Qed.

(** The fingerprint is the hash of the sum of the ids modulo 2^256 and of their number. *)
Theorem C38_sum_partial l xs : with_ids l xs -> exists acc,
  accumulate acc_zero acc_zero l = acc /\ length acc = 32%nat /\ number acc = (total xs mod 2 ^ 256)%N.
Proof.
  intro H. destruct (accumulate_spec l xs H acc_zero acc_zero eq_refl eq_refl) as [A B]. exists (accumulate acc_zero acc_zero l).
  split; [reflexivity|]. split; [exact A|]. rewrite B. reflexivity.
Qed.
Print Assumptions C38_sum_partial.

Lemma total_perm l l' : Permutation l l' -> total l = total l'.
Proof. induction 1; cbn [total]; lia. Qed.

(** The order of the items does not matter. *)
Theorem C38_order_partial sha l l' : (forall it, In it l -> exists x, it_id it = hex_encode x /\ plain_words x) -> Permutation l l' ->
  fingerprint sha l 0 (length l) = fingerprint sha l' 0 (length l').
Proof.
  intros H P.
  assert (G : forall l, (forall it, In it l -> exists x, it_id it = hex_encode x /\ plain_words x) -> with_ids l (map (fun it => hex_prefix (it_id it)) l)).
  { clear. induction l as [|it l IH]; intro H; [constructor|]. cbn [map]. constructor.
    - destruct (H it (or_introl eq_refl)) as (x & E & W). rewrite E, (hex_prefix_decode _ _ (hex_decode_encode x)). auto.
    - apply IH. intros y Hy. apply H. right. exact Hy. }
  assert (H' : forall it, In it l' -> exists x, it_id it = hex_encode x /\ plain_words x).
  { intros it Hi. apply H. eapply Permutation_in; [apply Permutation_sym, P|exact Hi]. }
  unfold fingerprint. rewrite (Permutation_length P). unfold range. rewrite Nat.sub_0_r. cbn [skipn].
  rewrite <- (Permutation_length P) at 1. rewrite !firstn_all.
  destruct (accumulate_spec l _ (G l H) acc_zero acc_zero eq_refl eq_refl) as [A1 A2].
  destruct (accumulate_spec l' _ (G l' H') acc_zero acc_zero eq_refl eq_refl) as [B1 B2].
  assert (accumulate acc_zero acc_zero l = accumulate acc_zero acc_zero l') as ->; [|reflexivity].
  apply le_value_inj; [congruence|].
  rewrite <- (number_le (accumulate acc_zero acc_zero l)), <- (number_le (accumulate acc_zero acc_zero l')), A2, B2.
  rewrite (total_perm _ _ (Permutation_map (fun it => hex_prefix (it_id it)) P)). reflexivity.
Qed.
Print Assumptions C38_order_partial.

Definition b32 (l : list N) : str := map byte_of l ++ repeat (byte_of 0) (32 - length l).
Example C38_example : with_ids [mkItem 1 (hex_encode (b32 [255;255;255;254;1])); mkItem 1 (hex_encode (b32 [3;0;0;1]))]%N [b32 [255;255;255;254;1]; b32 [3;0;0;1]]%N.
Proof.
  repeat constructor; vm_compute; discriminate.
Qed.

(** A word of all ones met by a carry loses the next carry: the sum is wrong and depends on the order. *)
Definition wA : str := b32 [1;0;0;0; 255;255;255;255]%N.
Definition wB : str := b32 [255;255;255;255; 255;255;255;255]%N.
Definition wC : str := b32 [0;0;0;0; 1]%N.
Theorem C38_order_refuted :
  (exists l xs, Forall2 (fun it x => it_id it = hex_encode x /\ length x = 32%nat) l xs /\
     number (accumulate acc_zero acc_zero l) <> (total xs mod 2 ^ 256)%N) /\
  (exists l l', Permutation l l' /\ accumulate acc_zero acc_zero l <> accumulate acc_zero acc_zero l').
Proof.
  split.
  - exists [mkItem 1 (hex_encode wA); mkItem 1 (hex_encode wB)], [wA; wB]. split.
    + repeat constructor.
    + vm_compute. discriminate.
  - exists [mkItem 1 (hex_encode wA); mkItem 1 (hex_encode wB); mkItem 1 (hex_encode wC)],
           [mkItem 1 (hex_encode wA); mkItem 1 (hex_encode wC); mkItem 1 (hex_encode wB)].
    split; [apply perm_skip, perm_swap|]. vm_compute. discriminate.
Qed.
Print Assumptions C38_order_refuted.

(** ** C41 *)
Theorem C41_seal items : Permutation items (seal items) /\ StronglySorted upto (seal items) /\
  (forall l, Permutation items l -> StronglySorted upto l -> l = seal items).
Proof.
  assert (T : forall l, StronglySorted ile l <-> StronglySorted upto l).
  { intro l. split; induction 1 as [|a l H IH F]; constructor; auto; (eapply Forall_impl; [|exact F]); intros b Hb; now apply ile_upto. }
  split; [apply seal_perm|]. split; [apply T, seal_sorted|]. intros l P S. apply sorted_unique; [apply T, S|apply seal_sorted|].
  eapply perm_trans; [apply Permutation_sym, P|apply seal_perm].
Qed.
Print Assumptions C41_seal.

(** FindLowerBound on a sealed vector: the first index from [begin] on whose item is not before the bound. *)
Theorem C41_find_lower_bound items begin end_ b : (begin <= end_ <= length items)%nat ->
  let l := seal items in let r := find_lower_bound l begin end_ b in
  (begin <= r <= end_)%nat /\
  (forall k y, (begin <= k < r)%nat -> nth_error l k = Some y -> before y b) /\
  (forall k y, (r <= k < end_)%nat -> nth_error l k = Some y -> ~ before y b).
Proof.
  intros H l r. assert (E : length l = length items) by (symmetry; apply Permutation_length, seal_perm).
  destruct (find_lower_bound_spec l begin end_ b (seal_sorted items) ltac:(lia)) as (R1 & R2 & R3). split; [exact R1|]. split.
  - intros k y Hk N. apply ilt_before. eapply R2; eassumption.
  - intros k y Hk N. rewrite <- ilt_before. apply not_ilt. eapply R3; eassumption.
Qed.
Print Assumptions C41_find_lower_bound.

Theorem C41_range l i j : (i <= j <= length l)%nat ->
  length (range l i j) = (j - i)%nat /\ forall k, (k < j - i)%nat -> nth_error (range l i j) k = nth_error l (i + k).
Proof. intro H. split; [apply range_length; lia|]. intros k Hk. apply nth_error_range. lia. Qed.
Print Assumptions C41_range.

Theorem C41_insert items ts id : (length id = 64%nat -> insert items ts id = Ok (items ++ [mkItem ts id])) /\
  (length id <> 64%nat -> insert items ts id = Panic).
Proof.
  unfold insert. split; intro H.
  - rewrite (proj2 (Nat.eqb_eq _ _) H). reflexivity.
  - rewrite (proj2 (Nat.eqb_neq _ _) H). reflexivity.
Qed.
Print Assumptions C41_insert.

Example C41_example :
  let a := mkItem 2 (id_of (B "b")) in let b := mkItem 1 (id_of (B "c")) in let c := mkItem 2 (id_of (B "a")) in
  seal [a; b; c] = [b; c; a] /\ find_lower_bound (seal [a; b; c]) 0 3 (mkItem 2 (B "aa")) = 2%nat.
Proof. vm_compute. auto. Qed.

(** ** C39 *)
(** A reader of [k] ranges that all carry a fingerprint, written from the wire format. *)
Fixpoint read_fps (k : nat) (last : Z) (r : str) : outcome (list (item * str) * str) :=
  match k with
  | O => Ok ([], r)
  | S k' =>
      do (b, r1) <- read_bound last r;
      do (mode, r2) <- read_varint r1;
      if mode =? 1 then
        do (f, r3) <- read_string 32 r2;
        do (l, r4) <- read_fps k' (it_ts b) r3;
        Ok ((b, f) :: l, r4)
      else Err
  end.

(** What a store must hold for its ranges to be sent: distinct 64 character ids, timestamps from 0 to 2^56-2, and ids that
    differ in their first seventeen bytes when the timestamps are equal. *)
Definition storable (l : list item) : Prop :=
  NoDup l /\
  (forall x, In x l -> length (it_id x) = 64%nat /\ 0 <= it_ts x < 2 ^ 56 - 1) /\
  (forall x y, In x l -> In y l -> x <> y -> it_ts x = it_ts y -> firstn 34 (it_id x) <> firstn 34 (it_id y)) /\
  Z.of_nat (length l) < 2 ^ 56.

Lemma storable_good l : storable l -> good (seal l).
Proof.
  intros (N & H1 & H2 & H3). assert (P := seal_perm l).
  assert (I : forall x, In x (seal l) -> In x l) by (intros x Hx; eapply Permutation_in; [apply Permutation_sym, P|exact Hx]).
  split.
  - assert (N' : NoDup (seal l)) by (eapply Permutation_NoDup; eassumption). assert (S := seal_sorted l).
    unfold isorted. clear -N' S. revert N'. induction S as [|a r H IH F]; intro N; constructor; apply NoDup_cons_iff in N; destruct N as [N1 N2].
    + apply IH, N2.
    + rewrite Forall_forall in *. intros x Hx. specialize (F x Hx). apply ile_cases in F. destruct F as [F|F]; [exact F|]. subst x. contradiction.
  - split; [auto|]. split; [intros x y Hx Hy; apply H2; auto|]. rewrite <- (Permutation_length P). exact H3.
Qed.

Section Split.
Variable sha : str -> str.

Fixpoint chunks (num k i : nat) (rest : list item) : list (list item) :=
  match k with
  | O => []
  | S k' => let n := bucket_size num i in firstn n rest :: chunks num k' (i + 1) (skipn n rest)
  end.

Lemma chunks_concat num : forall k i rest, sum_sizes num k i = length rest -> concat (chunks num k i rest) = rest.
Proof.
  induction k as [|k IH]; intros i rest H; cbn [chunks concat sum_sizes] in *.
  - destruct rest; [reflexivity|discriminate].
  - rewrite IH; [apply firstn_skipn|]. rewrite skipn_length. lia.
Qed.
Lemma chunks_sizes num : forall k i rest, sum_sizes num k i = length rest ->
  map (@length item) (chunks num k i rest) = map (bucket_size num) (seq i k).
Proof.
  induction k as [|k IH]; intros i rest H; cbn [chunks map sum_sizes seq] in *; [reflexivity|]. f_equal.
  - rewrite firstn_length. lia.
  - rewrite IH by (rewrite skipn_length; lia). rewrite Nat.add_1_r. reflexivity.
Qed.
Lemma chunks_length num : forall k i rest, length (chunks num k i rest) = k.
Proof. induction k as [|k IH]; intros i rest; cbn [chunks length]; [|rewrite IH]; reflexivity. Qed.
Lemma bucket_size_even num i j : (bucket_size num i <= bucket_size num j + 1)%nat.
Proof. unfold bucket_size. destruct (i <? num mod buckets)%nat, (j <? num mod buckets)%nat; lia. Qed.

(** The bounds written for the chunks. *)
Lemma asplit_loop_bounds l num hi : good l -> bound_ok hi -> (buckets * 2 <= num)%nat ->
  forall k i rest lo, (0 < k)%nat -> sum_sizes num k i = length rest -> inside lo hi l = rest -> ile lo hi ->
  exists bs, asplit_loop sha num k i rest hi = map (fun p => (fst p, PFp (fp sha (snd p)))) (combine bs (chunks num k i rest)) /\
    length bs = k /\ nth_error bs (k - 1) = Some hi /\ Forall (fun b => ile lo b) bs /\
    (forall n b x, nth_error bs n = Some b ->
       (In x (concat (firstn (n + 1) (chunks num k i rest))) -> ilt x b) /\
       (In x (concat (skipn (n + 1) (chunks num k i rest))) -> ile b x)).
Proof.
  intros G Hhi Hnum. induction k as [|k IH]; intros i rest lo Hk HL HI Hlo; [lia|].
  cbn [asplit_loop sum_sizes chunks] in *.
  pose proof (bucket_size_ge num i Hnum) as HB. set (n := bucket_size num i) in *. clearbody n.
  destruct (skipn n rest) as [|c rest'] eqn:ES.
  - assert (length rest <= n)%nat as LE.
    { assert (L := skipn_length n rest). rewrite ES in L. cbn [length] in L. lia. }
    destruct k as [|k]; [|pose proof (sum_sizes_pos num (S k) (i + 1) Hnum ltac:(lia)); lia].
    exists [hi]. cbn [asplit_loop chunks combine map fst snd]. split; [reflexivity|]. split; [reflexivity|]. split; [reflexivity|].
    split; [constructor; [exact Hlo|constructor]|]. intros m b x E. destruct m as [|m]; [|destruct m; discriminate]. injection E as <-.
    cbn [Nat.add firstn skipn concat]. rewrite firstn_all2, app_nil_r by exact LE. split; [|intros []].
    rewrite <- HI. intro X. apply in_inside in X. apply X.
  - assert (LR : (n < length rest)%nat).
    { assert (L := skipn_length n rest). rewrite ES in L. cbn [length] in L. lia. }
    assert (Hk0 : (0 < k)%nat) by (destruct k; [cbn [sum_sizes] in HL; lia|lia]).
    destruct (split_step l lo hi rest n c rest' G ltac:(lia) HI ES) as (p & b & EP & _ & EB & Hlb & Hbh & OK & I1 & I2).
    rewrite EP, EB.
    destruct (IH (i + 1)%nat (c :: rest') b Hk0) as (bs & E1 & E2 & E3 & E4 & E5); [rewrite <- ES, skipn_length; lia|exact I2|exact Hbh|].
    exists (b :: bs). cbn [combine map fst snd length]. rewrite E1. split; [reflexivity|]. split; [rewrite E2; reflexivity|].
    split. { replace (S k - 1)%nat with (S (k - 1)) by lia. exact E3. }
    split. { constructor; [exact Hlb|]. eapply Forall_impl; [|exact E4]. intros d Hd. eapply ile_trans; eassumption. }
    intros m d x E. destruct m as [|m].
    + injection E as <-. cbn [Nat.add firstn skipn concat]. rewrite app_nil_r. split.
      * rewrite <- I1. intro X. apply in_inside in X. apply X.
      * rewrite chunks_concat by (rewrite <- ES, skipn_length; lia). rewrite <- I2. intro X. apply in_inside in X. apply X.
    + cbn [nth_error Nat.add firstn skipn concat] in *. destruct (E5 m d x E) as [F1 F2]. split; [|exact F2].
      rewrite in_app_iff. intros [X|X]; [|auto]. rewrite <- I1 in X. apply in_inside in X.
      rewrite Forall_forall in E4. eapply ilt_ile_trans; [apply X|]. apply E4. eapply nth_error_In, E.
Qed.

Hypothesis sha_len : forall x, length (sha x) = 32%nat.

Lemma read_fps_text l lo m hi : good l -> covers sha l lo m hi -> forall last, 0 <= last <= it_ts lo ->
  forall fps, m = map (fun p => (fst p, PFp (snd p))) fps -> read_fps (length m) last (mtext last m) = Ok (fps, []).
Proof.
  intro G. induction 1 as [lo|lo b p m hi H1 H2 H3 H4 IH]; intros last HL fps E.
  - destruct fps; [reflexivity|discriminate].
  - destruct fps as [|[b' f] fps]; [discriminate|]. cbn [map fst snd] in E. injection E as <- -> Em. cbn [payload_ok] in H3.
    pose proof (ile_ts _ _ H1) as T.
    cbn [length read_fps mtext ptext]. destruct (bound_roundtrip last b (ptext (PFp f) ++ mtext (it_ts b) m) H2 ltac:(lia)) as [_ R].
    cbn [ptext] in R. rewrite R. cbn [obind]. rewrite <- app_assoc, (read_mode sha sha_len) by lia. cbn [obind]. change (Z.of_N 1 =? 1) with true. cbv iota.
    assert (Lf : length f = 32%nat).
    { rewrite H3. apply fp_len; [exact sha_len|]. pose proof (inside_length lo b l). destruct G as (_ & _ & _ & G). lia. }
    rewrite (read_string_app sha sha_len) by (rewrite Lf; reflexivity). cbn [obind]. rewrite (IH (it_ts b) ltac:(pose proof H2 as (_ & _ & Q); unfold max_ts in Q; lia) fps Em). reflexivity.
Qed.
End Split.

(** Splitting a range of 32 items or more: sixteen consecutive chunks that make up the range, sizes within one of each
    other, each sent with its fingerprint under a bound that is above every item up to it and not above any later one. *)
Theorem C39_split_covers_partial sha items lower upper ub last : (forall x, length (sha x) = 32%nat) -> storable items ->
  let l := seal items in
  (lower + 32 <= upper <= length l)%nat ->
  Nat.Even (length (it_id ub)) -> Z.of_nat (length (it_id ub)) < 2 ^ 56 -> (it_ts ub = 2 ^ 63 - 1 \/ 0 <= it_ts ub < 2 ^ 56 - 1) ->
  (forall k x, nth_error l k = Some x -> (before x ub <-> (k < upper)%nat)) ->
  0 <= last -> (forall x, nth_error l lower = Some x -> last <= it_ts x) ->
  exists (cs : list (list item)) (bs : list item) t,
    length cs = 16%nat /\ concat cs = range l lower upper /\
    (forall c d, In c cs -> In d cs -> (length c <= length d + 1)%nat) /\
    split_range sha l lower upper ub last = Ok (t, it_ts ub) /\
    (exists fps, Forall2 (fun c f => fingerprint sha c 0 (length c) = Ok f) cs fps /\ read_fps 16 last t = Ok (combine bs fps, [])) /\
    nth_error bs 15 = Some ub /\
    (forall n b x, nth_error bs n = Some b ->
       (In x (concat (firstn (n + 1) cs)) -> before x b) /\ (In x (concat (skipn (n + 1) cs)) -> upto b x)).
Proof.
  intros SL ST l HR U1 U2 U3 HU HL HF.
  assert (G := storable_good items ST). fold l in G. assert (Hhi : bound_ok ub) by (split; [exact U1|split; [exact U2|exact U3]]).
  destruct (nth_error l lower) as [lo|] eqn:El; [|apply nth_error_None in El; lia].
  specialize (HF lo eq_refl).
  assert (Rhi : rank ub l = upper).
  { apply rank_unique; [lia| |].
    - intros k y Hk E. apply ilt_before. apply (HU k y E). exact Hk.
    - intros k y Hk E. apply not_ilt. rewrite ilt_before. intro X. apply (HU k y E) in X. lia. }
  assert (Rlo : rank lo l = lower).
  { apply rank_unique; [lia| |].
    - intros k y Hk E. eapply (StronglySorted_nth ilt l k lower); [apply G|exact Hk|exact E|exact El].
    - intros k y Hk E. destruct (Nat.eq_dec k lower) as [->|N]; [rewrite El in E; injection E as <-; apply ile_refl|].
      apply ilt_ile. eapply (StronglySorted_nth ilt l lower k); [apply G|lia|exact El|exact E]. }
  assert (Hlo : ile lo ub). { apply ilt_ile, ilt_before. apply (HU lower lo El). lia. }
  assert (IN := inside_range lo ub l (proj1 G) Hlo). rewrite Rlo, Rhi in IN.
  assert (LEN : length (range l lower upper) = (upper - lower)%nat) by (apply range_length; lia).
  assert (TX := split_range_text sha l lo ub last G Hhi Hlo (conj HL HF)). rewrite Rlo, Rhi in TX.
  assert (CV := asplit_covers sha l lo ub G Hhi Hlo).
  unfold asplit in TX, CV. rewrite IN, LEN in TX, CV.
  assert (BIG : (buckets * 2 <= upper - lower)%nat) by (unfold buckets; lia).
  rewrite (proj2 (Nat.ltb_ge _ _) BIG) in TX, CV.
  set (num := (upper - lower)%nat) in *. set (rest := range l lower upper) in *.
  assert (SS : sum_sizes num buckets 0 = length rest) by (rewrite sum_sizes_total; lia).
  destruct (asplit_loop_bounds sha l num ub G Hhi BIG buckets 0 rest lo ltac:(unfold buckets; lia) SS IN Hlo) as (bs & E1 & E2 & E3 & E4 & E5).
  exists (chunks num buckets 0 rest), bs, (mtext last (asplit_loop sha num buckets 0 rest ub)).
  split; [apply chunks_length|]. split; [apply chunks_concat, SS|]. split.
  { intros c d Hc Hd. apply (in_map (@length item)) in Hc. apply (in_map (@length item)) in Hd.
    rewrite (chunks_sizes num buckets 0 rest SS) in Hc, Hd. apply in_map_iff in Hc. apply in_map_iff in Hd.
    destruct Hc as (i & <- & _). destruct Hd as (j & <- & _). apply bucket_size_even. }
  split; [exact TX|]. split; [|split; [exact E3|]].
  - exists (map (fp sha) (chunks num buckets 0 rest)). split.
    + assert (LC : forall c, In c (chunks num buckets 0 rest) -> (length c <= length l)%nat).
      { intros c Hc. apply in_split in Hc. destruct Hc as (c1 & c2 & Ec). pose proof (chunks_concat num buckets 0 rest SS) as CC.
        rewrite Ec, concat_app in CC. cbn [concat] in CC. apply (f_equal (@length item)) in CC. rewrite !app_length in CC. lia. }
      clear -LC G. induction (chunks num buckets 0 rest) as [|c cs IH]; constructor; [|apply IH; intros d Hd; apply LC; right; exact Hd].
      rewrite fingerprint_fp; [|specialize (LC c (or_introl eq_refl)); destruct G as (_ & _ & _ & G); lia|lia].
      unfold range. rewrite Nat.sub_0_r. cbn [skipn]. rewrite firstn_all. reflexivity.
    + assert (LA : length (asplit_loop sha num buckets 0 rest ub) = 16%nat).
      { rewrite E1, map_length, combine_length, E2, chunks_length. reflexivity. }
      rewrite <- LA. apply (read_fps_text sha SL l lo _ ub G CV); [auto|].
      rewrite E1. clear. generalize (chunks num buckets 0 rest). revert bs. induction bs as [|b bs IH]; intros [|c cs]; try reflexivity.
      cbn [combine map fst snd]. rewrite IH. reflexivity.
  - intros n b x E. rewrite <- ilt_before, <- ile_upto. apply (E5 n b x E).
Qed.
Print Assumptions C39_split_covers_partial.
(** The conditions on times and ids are needed: with events from before 1970 the first split crashes, and with ids that agree in their first 34 digits an item stands on the wrong side of a bound. *)
Definition olden : list item := map (fun n => mkItem (Z.of_nat n - 40) (hex_encode (repeat (byte_of (N.of_nat n)) 32))) (seq 1 32).
Theorem C39_old_events_refuted : NoDup olden /\ length olden = 32%nat /\ Forall (fun x => length (it_id x) = 64%nat) olden /\ start (fun _ => repeat zero 32) (seal olden) = Panic.
Proof.
  split; [|split; [reflexivity|split; [|vm_compute; reflexivity]]].
  - apply (NoDup_map_inv it_ts). change (map it_ts olden) with (map it_ts (map (fun n => mkItem (Z.of_nat n - 40) (hex_encode (repeat (byte_of (N.of_nat n)) 32))) (seq 1 32))). rewrite map_map. cbn [it_ts]. apply FinFun.Injective_map_NoDup; [intros a b H; lia|apply seq_NoDup].
  - unfold olden. apply Forall_forall. intros x X. apply in_map_iff in X. destruct X as (n & <- & _). reflexivity.
Qed.
Definition alike : list item := map (fun n => mkItem 7 (hex_encode (repeat zero 17 ++ repeat (byte_of (N.of_nat n)) 15))) (seq 1 32).
Theorem C39_alike_ids_refuted : NoDup alike /\ Forall (fun x => length (it_id x) = 64%nat) alike /\ exists t bs x b, split_range (fun _ => repeat zero 32) (seal alike) 0 32 infinite_bound 0 = Ok (t, it_ts infinite_bound) /\ read_fps 16 0 t = Ok (bs, []) /\
  nth_error (map fst bs) 0 = Some b /\ nth_error (seal alike) 0 = Some x /\ ~ before x b.
Proof.
  split; [|split].
  - apply (NoDup_map_inv (fun x => match hex_decode (it_id x) with Some s => N.to_nat (val (nth 31 s zero)) | None => O end)). replace (map _ alike) with (seq 1 32) by (vm_compute; reflexivity). apply seq_NoDup.
  - unfold alike. apply Forall_forall. intros x X. apply in_map_iff in X. destruct X as (n & <- & _). reflexivity.
  - do 4 eexists. split; [vm_compute; reflexivity|]. split; [vm_compute; reflexivity|]. split; [vm_compute; reflexivity|]. split; [vm_compute; reflexivity|]. intros [H|[_ H]]; [vm_compute in H; discriminate|]. apply scmp_lex in H. vm_compute in H. discriminate.
Qed.
Print Assumptions C39_old_events_refuted.
Print Assumptions C39_alike_ids_refuted.

(** The sizes add up for every number of items, also below 32. *)
Theorem C39_sizes n : fold_right Nat.add 0%nat (map (bucket_size n) (seq 0 16)) = n /\
  forall i j, (bucket_size n i <= bucket_size n j + 1)%nat.
Proof.
  split; [|intros i j; apply bucket_size_even].
  assert (H : forall k i, sum_sizes n k i = fold_right Nat.add 0%nat (map (bucket_size n) (seq i k))).
  { induction k as [|k IH]; intro i; [reflexivity|]. cbn [sum_sizes seq map fold_right]. rewrite IH, Nat.add_1_r. reflexivity. }
  rewrite <- H. apply (sum_sizes_total n).
Qed.
Print Assumptions C39_sizes.

(** ** C40 *)
(** Fingerprints tell the ranges of the two stores apart. *)
Definition no_collision (sha : str -> str) (c s : list item) : Prop :=
  forall i j i' j', (i <= j <= length c)%nat -> (i' <= j' <= length s)%nat ->
    fingerprint sha c i j = fingerprint sha s i' j' -> range c i j = range s i' j'.

Theorem C40_reconciliation_partial sha citems sitems fuel :
  (forall x, length (sha x) = 32%nat) ->
  storable citems -> storable sitems ->
  (forall x y, In x (citems ++ sitems) -> In y (citems ++ sitems) -> it_id x = it_id y -> x = y) ->
  no_collision sha (seal citems) (seal sitems) ->
  (length citems + length sitems + 2 < fuel)%nat ->
  exists haves havenots,
    session sha fuel None None (seal citems) (seal sitems) = Ok (haves, havenots) /\
    (forall id, In id haves <-> (exists x, In x citems /\ it_id x = id) /\ ~ (exists x, In x sitems /\ it_id x = id)) /\
    (forall id, In id havenots <-> (exists x, In x sitems /\ it_id x = id) /\ ~ (exists x, In x citems /\ it_id x = id)) /\
    NoDup haves /\ NoDup havenots.
Proof.
  intros SL GC GS CON NC FU.
  assert (Gc := storable_good _ GC). assert (Gs := storable_good _ GS).
  assert (Ic : forall x, In x (seal citems) <-> In x citems).
  { intro x. split; apply Permutation_in; [apply Permutation_sym|]; apply seal_perm. }
  assert (Is : forall x, In x (seal sitems) <-> In x sitems).
  { intro x. split; apply Permutation_in; [apply Permutation_sym|]; apply seal_perm. }
  destruct (session_correct sha SL (seal citems) (seal sitems) fuel Gc Gs) as (H & HN & E & H1 & H2 & H3 & H4).
  - intros x y Hx Hy. apply CON; rewrite in_app_iff in *; rewrite ?Ic, ?Is in *; assumption.
  - intros lo hi Hl Ef. rewrite !inside_range by (apply Gc || apply Gs || exact Hl). apply NC.
    + split; [apply rank_mono, Hl|apply rank_le].
    + split; [apply rank_mono, Hl|apply rank_le].
    + rewrite !fingerprint_fp; try (apply Gc || apply Gs); try (split; [apply rank_mono, Hl|apply rank_le]).
      rewrite <- !inside_range by (apply Gc || apply Gs || exact Hl). rewrite Ef. reflexivity.
  - rewrite <- !(Permutation_length (seal_perm _)). exact FU.
  - exists H, HN. split; [exact E|]. split; [|split; [|split; assumption]].
    + intro id. rewrite H1. split.
      * intros (x & X1 & X2 & X3). rewrite Ic in X1. rewrite Is in X2. split; [eauto|]. intros (y & Y1 & Y2). apply X2.
        assert (x = y) as ->; [|exact Y1]. apply CON; [apply in_or_app; auto..|congruence].
      * intros ((x & X1 & X2) & X3). exists x. rewrite Ic, Is. split; [exact X1|]. split; [|exact X2]. intro Y. apply X3. eauto.
    + intro id. rewrite H3. split.
      * intros (x & X1 & X2 & X3). rewrite Is in X1. rewrite Ic in X2. split; [eauto|]. intros (y & Y1 & Y2). apply X2.
        assert (x = y) as ->; [|exact Y1]. apply CON; [apply in_or_app; auto..|congruence].
      * intros ((x & X1 & X2) & X3). exists x. rewrite Ic, Is. split; [exact X1|]. split; [|exact X2]. intro Y. apply X3. eauto.
Qed.
Print Assumptions C40_reconciliation_partial.

(** *** A case *)
(** A stand-in for the hash: the first 32 bytes. *)
Definition first32 (x : str) : str := firstn 32 (x ++ repeat (byte_of 0) 32).
Lemma first32_len x : length (first32 x) = 32%nat.
Proof. unfold first32. rewrite firstn_length, app_length, repeat_length. lia. Qed.

(** Pseudo random ids. *)
Fixpoint lcg_bytes (n : nat) (x : N) : str :=
  match n with
  | O => []
  | S k => let x' := ((x * 1103515245 + 12345) mod 2147483648)%N in byte_of ((x' / 65536) mod 256) :: lcg_bytes k x'
  end.
Definition demo_id (i : N) : str := hex_encode (lcg_bytes 32 ((i * 2654435761 + 12345) mod 4294967296)%N).
Definition demo_items (t from : N) (n : nat) : list item :=
  map (fun i => mkItem (Z.of_N ((N.of_nat i * 7919) mod t)) (demo_id (from + N.of_nat i))) (seq 0 n).

Definition item_eqb (a b : item) : bool := (it_ts a =? it_ts b) && seqb (it_id a) (it_id b).
Lemma item_eqb_eq a b : item_eqb a b = true <-> a = b.
Proof.
  unfold item_eqb. rewrite andb_true_iff, Z.eqb_eq, seqb_eq. destruct a, b; cbn. split; [intros [-> ->]; reflexivity|].
  intro H. injection H as -> ->. auto.
Qed.
Fixpoint items_eqb (a b : list item) : bool :=
  match a, b with [], [] => true | x :: a', y :: b' => item_eqb x y && items_eqb a' b' | _, _ => false end.
Lemma items_eqb_eq a : forall b, items_eqb a b = true -> a = b.
Proof.
  induction a as [|x a IH]; intros [|y b] H; try discriminate; [reflexivity|]. cbn [items_eqb] in H. apply andb_prop in H.
  destruct H as [H1 H2]. apply item_eqb_eq in H1. rewrite H1, (IH _ H2). reflexivity.
Qed.
Definition all_ranges (l : list item) : list (outcome str * list item) :=
  flat_map (fun i => map (fun d => (fingerprint first32 l i (i + d), range l i (i + d))) (seq 0 (S (length l - i)))) (seq 0 (S (length l))).
Definition collision_free (c s : list item) : bool :=
  let rs := all_ranges s in
  forallb (fun p => forallb (fun q => match fst p, fst q with
                                      | Ok a, Ok b => if seqb a b then items_eqb (snd p) (snd q) else true
                                      | _, _ => false
                                      end) rs) (all_ranges c).
Lemma collision_free_ok c s : collision_free c s = true -> no_collision first32 c s.
Proof.
  intros H i j i' j' Hi Hj E. unfold collision_free in H. rewrite forallb_forall in H.
  assert (A : forall l i j, (i <= j <= length l)%nat -> In (fingerprint first32 l i j, range l i j) (all_ranges l)).
  { clear. intros l i j H. unfold all_ranges. apply in_flat_map. exists i. split; [apply in_seq; lia|].
    apply in_map_iff. exists (j - i)%nat. replace (i + (j - i))%nat with j by lia. split; [reflexivity|apply in_seq; lia]. }
  specialize (H _ (A c i j Hi)). rewrite forallb_forall in H. specialize (H _ (A s i' j' Hj)). cbn [fst snd] in H.
  rewrite E in H. destruct (fingerprint first32 s i' j') as [a| |]; try discriminate. rewrite seqb_refl in H. apply items_eqb_eq, H.
Qed.

Definition storableb (l : list item) : bool :=
  forallb (fun x => Nat.eqb (length (it_id x)) 64 && (0 <=? it_ts x) && (it_ts x <? 2 ^ 56 - 1)) l &&
  (fix nd l := match l with [] => true | x :: r => forallb (fun y => negb (seqb (firstn 34 (it_id x)) (firstn 34 (it_id y)))) r && nd r end) l &&
  (Z.of_nat (length l) <? 2 ^ 56).
Lemma storableb_ok l : storableb l = true -> storable l /\ forall x y, In x l -> In y l -> it_id x = it_id y -> x = y.
Proof.
  unfold storableb. intro H. apply andb_prop in H. destruct H as [H H3]. apply andb_prop in H. destruct H as [H1 H2].
  apply Z.ltb_lt in H3. rewrite forallb_forall in H1.
  assert (D : NoDup l /\ forall x y, In x l -> In y l -> x <> y -> firstn 34 (it_id x) <> firstn 34 (it_id y)).
  { clear H1 H3. revert H2. induction l as [|a l IH]; intro H; [split; [constructor|intros x y []]|].
    apply andb_prop in H. destruct H as [Ha H]. destruct (IH H) as [I1 I2]. rewrite forallb_forall in Ha.
    assert (F : forall y, In y l -> firstn 34 (it_id a) <> firstn 34 (it_id y)).
    { intros y Hy E. specialize (Ha y Hy). rewrite E, seqb_refl in Ha. discriminate. }
    split.
    - constructor; [|exact I1]. intro X. apply (F a X). reflexivity.
    - intros x y [<-|Hx] [<-|Hy] N; [congruence|apply F, Hy|intro E; symmetry in E; revert E; apply F, Hx|apply I2; assumption]. }
  destruct D as [D1 D2]. split.
  - split; [exact D1|]. split; [|split; [|exact H3]].
    + intros x Hx. specialize (H1 x Hx). apply andb_prop in H1. destruct H1 as [H1 A3]. apply andb_prop in H1. destruct H1 as [A1 A2].
      apply Nat.eqb_eq in A1. apply Z.leb_le in A2. apply Z.ltb_lt in A3. auto.
    + intros x y Hx Hy N _. apply D2; assumption.
  - intros x y Hx Hy E. destruct (item_eqb x y) eqn:Q; [apply item_eqb_eq, Q|].
    exfalso. apply (D2 x y Hx Hy); [|rewrite E; reflexivity]. intros ->. rewrite (proj2 (item_eqb_eq y y) eq_refl) in Q. discriminate.
Qed.

(** Thirty-one shared items, two only here, three only there: the hypotheses hold and the session finds the five. *)
Definition demo_c : list item := demo_items 25 0 31 ++ demo_items 25 100 2.
Definition demo_s : list item := demo_items 25 0 31 ++ demo_items 25 200 3.
Example C40_example :
  storable demo_c /\ storable demo_s /\ no_collision first32 (seal demo_c) (seal demo_s) /\
  session first32 100 None None (seal demo_c) (seal demo_s) = Ok ([demo_id 100; demo_id 101], [demo_id 200; demo_id 202; demo_id 201]).
Proof.
  split; [apply storableb_ok; vm_compute; reflexivity|]. split; [apply storableb_ok; vm_compute; reflexivity|].
  split; [apply collision_free_ok; vm_compute; reflexivity|]. vm_compute. reflexivity.
Qed.

(** With a frame limit, "exactly once" fails: a range cut short is followed by one fingerprint for all that is left, and
    ids already answered beyond the cut are reported again. All items have the same timestamp here. *)
Fixpoint nodupb (l : list str) : bool := match l with [] => true | x :: r => negb (smem x r) && nodupb r end.
Definition lim_c : list item := seal (demo_items 1 0 32).
Definition lim_s : list item := seal (demo_items 1 5000 260).
Theorem C40_exactly_once_refuted : exists c s limit haves havenots,
  storable c /\ storable s /\ new_limit 4096 = Ok limit /\
  session first32 100 None limit c s = Ok (haves, havenots) /\ ~ NoDup haves /\ ~ NoDup havenots.
Proof.
  exists lim_c, lim_s, (Some 4096).
  assert (N : forall l, nodupb l = false -> ~ NoDup l).
  { intros l H D. induction D as [|x l X D IH]; [discriminate|]. cbn [nodupb] in H. apply andb_false_iff in H. destruct H as [H|H]; [|auto].
    apply negb_false_iff in H. apply smem_In in H. contradiction. }
  assert (E : exists h hn, session first32 100 None (Some 4096) lim_c lim_s = Ok (h, hn) /\ nodupb h = false /\ nodupb hn = false).
  { eexists. eexists. split; [vm_compute; reflexivity|]. split; vm_compute; reflexivity. }
  destruct E as (h & hn & E & E1 & E2). exists h, hn.
  split; [apply storableb_ok; vm_compute; reflexivity|]. split; [apply storableb_ok; vm_compute; reflexivity|].
  split; [reflexivity|]. split; [exact E|]. split; apply N; assumption.
Qed.
Print Assumptions C40_exactly_once_refuted.

(** A message from the other side can crash the reader: a length of 2^62 bytes doubles to a negative number of characters. *)
Theorem C40_hostile_message_refuted : exists msg, reconcile first32 [] None true msg = Panic.
Proof. exists (B "61" ++ B "01" ++ B "c08080808080808000"). vm_compute. reflexivity. Qed.
Print Assumptions C40_hostile_message_refuted.

(** How a message must begin: with the byte 61 in hex. Another byte is an error for the client and answered with "61" by the server, anything else is an error for both. *)
Theorem C40_first_byte sha items limit client msg :
  match msg with
  | a :: b :: r =>
      match hex_val a, hex_val b with
      | Some x, Some y => (16 * x + y <> 97)%N -> reconcile sha items limit client msg = if client then Err else Ok (B "61", [], [], false)
      | _, _ => reconcile sha items limit client msg = Err
      end
  | _ => reconcile sha items limit client msg = Err
  end.
Proof.
  destruct msg as [|a [|b r]]; [reflexivity..|]. unfold reconcile, reconcile_aux. cbn [read_hex_byte]. destruct (hex_val a) as [x|]; [|reflexivity]. destruct (hex_val b) as [y|]; [|reflexivity]. intro H. cbn [obind].
  assert (E : ((16 * x + y =? protocol_version) = false)%N) by (apply N.eqb_neq; exact H). rewrite E. cbn [negb]. destruct client; reflexivity.
Qed.
Print Assumptions C40_first_byte.
Example C40_first_byte_example : reconcile first32 [] None false (B "62") = Ok (B "61", [], [], false) /\ reconcile first32 [] None true (B "6x") = Err /\ exists o, reconcile first32 [] None false (B "61") = Ok o.
Proof. split; [reflexivity|]. split; [reflexivity|]. eexists. vm_compute. reflexivity. Qed.

(** ** C42 *)
(** Fields that are written raw, between quotes. *)
Definition neg_fine (m : neg_env) : Prop :=
  match m with
  | NOpen sub f msg => no_quote sub = true /\ no_quote msg = true /\ text_filter f /\ normal_filter f
  | NMsg sub msg => no_quote sub = true /\ no_quote msg = true
  | NClose sub => no_quote sub = true
  | NErr sub reason => False
  end.

Lemma index_comma a r : forallb (fun c => negb (Ascii.eqb ","%char c)) a = true -> index (a ++ ","%char :: r) (B ",") = Some (length a).
Proof.
  induction a as [|c a IH]; intro H; [reflexivity|]. cbn [forallb] in H. apply andb_prop in H. destruct H as [H1 H2]. apply negb_true_iff in H1.
  cbn [app index B list_ascii_of_string has_prefix length]. rewrite H1. cbn [andb]. change [","%char] with (B ","). rewrite (IH H2). reflexivity.
Qed.
Lemma parse_label l t ts : forallb (fun c => negb (Ascii.eqb ","%char c)) l = true ->
  parse_neg (jw_array (qt l :: t :: ts)) = Ok (neg_from_json l (jw_array (qt l :: t :: ts))).
Proof.
  intro H. unfold parse_neg.
  assert (E : jw_array (qt l :: t :: ts) = ("["%char :: quote :: l ++ [quote]) ++ ","%char :: t ++ tails ts ++ ["]"%char]).
  { rewrite marshal_array. unfold tails. cbn [flat_map app]. rewrite <- !app_assoc. cbn [app]. reflexivity. }
  rewrite E at 1. rewrite index_comma.
  - cbn [length]. rewrite app_length. cbn [length].
    destruct (Nat.ltb_spec (S (S (length l + 1))) 3) as [L|L]; [lia|]. do 2 f_equal.
    rewrite E at 1. cbn [app skipn]. rewrite <- app_assoc. replace (S (S (length l + 1)) - 3)%nat with (length l) by lia.
    rewrite firstn_app, Nat.sub_diag, firstn_all. cbn [firstn]. apply app_nil_r.
  - cbn [forallb]. rewrite forallb_app, H. reflexivity.
Qed.

Lemma index_no_comma t : ~ In ","%char t -> index t (B ",") = None.
Proof.
  induction t as [|x t IH]; intro H; [reflexivity|]. change (B ",") with [","%char] in *. cbn [index has_prefix]. destruct (Ascii.eqb_spec ","%char x) as [<-|_]; [destruct H; left; reflexivity|]. cbn [andb].
  rewrite IH by (intro Q; apply H; right; exact Q). reflexivity.
Qed.
(** A text without a comma is no message of this kind, and no crash. *)
Theorem C42_no_comma t : ~ In ","%char t -> parse_neg t = Ok None.
Proof. intro H. unfold parse_neg. rewrite (index_no_comma t H). reflexivity. Qed.
Theorem C42_round_trip_partial m : neg_fine m -> parse_neg (neg_marshal m) = Ok (Some m).
Proof.
  destruct m as [sub f msg|sub msg|sub|sub reason]; cbn [neg_fine]; intro H.
  - destruct H as (H1 & H2 & H3 & H4). destruct (encode_filter_enc f H3) as (vs & Hv & _).
    assert (E : neg_marshal (NOpen sub f msg) = jw_array (qt (B "NEG-OPEN") :: [qt sub; encode_filter f; qt msg])).
    { rewrite marshal_array. cbn [neg_marshal]. norm_text. reflexivity. }
    rewrite E, parse_label by reflexivity. unfold neg_from_json.
    rewrite (g_array_list _ [mkG (qt (B "NEG-OPEN")) (B "NEG-OPEN") false; mkG (qt sub) sub false; mkG (encode_filter f) [] true; mkG (qt msg) msg false]).
    + cbn [seqb B list_ascii_of_string Ascii.eqb Bool.eqb andb g_str g_raw].
      rewrite filter_round_trip by exact H3. rewrite normal_canon by exact H4. reflexivity.
    + constructor; [apply elem_label; reflexivity|]. constructor; [apply elem_raw, H1|].
      constructor; [eapply elem_object, Hv|]. constructor; [apply elem_raw, H2|constructor].
    + discriminate.
  - destruct H as (H1 & H2).
    assert (E : neg_marshal (NMsg sub msg) = jw_array (qt (B "NEG-MSG") :: [qt sub; qt msg])).
    { rewrite marshal_array. cbn [neg_marshal]. norm_text. reflexivity. }
    rewrite E, parse_label by reflexivity. unfold neg_from_json.
    rewrite (g_array_list _ [mkG (qt (B "NEG-MSG")) (B "NEG-MSG") false; mkG (qt sub) sub false; mkG (qt msg) msg false]).
    + reflexivity.
    + constructor; [apply elem_label; reflexivity|]. constructor; [apply elem_raw, H1|]. constructor; [apply elem_raw, H2|constructor].
    + discriminate.
  - assert (E : neg_marshal (NClose sub) = jw_array (qt (B "NEG-CLOSE") :: [qt sub])).
    { rewrite marshal_array. cbn [neg_marshal]. norm_text. reflexivity. }
    rewrite E, parse_label by reflexivity. unfold neg_from_json.
    rewrite (g_array_list _ [mkG (qt (B "NEG-CLOSE")) (B "NEG-CLOSE") false; mkG (qt sub) sub false]).
    + reflexivity.
    + constructor; [apply elem_label; reflexivity|]. constructor; [apply elem_raw, H|constructor].
    + discriminate.
  - contradiction.
Qed.
Print Assumptions C42_round_trip_partial.
Print Assumptions C42_no_comma.

Example C42_example : neg_fine (NOpen (B "go-nostr-tmp") sample_filter (B "6100000200")) /\
  neg_marshal (NMsg (B "x") (B "61")) = B "[""NEG-MSG"",""x"",""61""]".
Proof. split; [|reflexivity]. split; [reflexivity|]. split; [reflexivity|]. split; apply C18_example. Qed.

(** An error is written under the label NEG-ERROR, which the parser does not know: no error message survives. *)
Theorem C42_error_lost sub reason : parse_neg (neg_marshal (NErr sub reason)) = Ok None.
Proof. reflexivity. Qed.
Print Assumptions C42_error_lost.

Theorem C42_round_trip_refuted : exists m, parse_neg (neg_marshal m) <> Ok (Some m).
Proof. exists (NErr (B "x") (B "blocked")). rewrite C42_error_lost. discriminate. Qed.
Print Assumptions C42_round_trip_refuted.

(** Errors that other programs send, labelled NEG-ERR, are read. *)
Theorem C42_error_read sub reason : no_quote sub = true -> no_quote reason = true ->
  parse_neg (B "[""NEG-ERR"",""" ++ sub ++ B """,""" ++ reason ++ B """]") = Ok (Some (NErr sub reason)).
Proof.
  intros H1 H2.
  assert (E : B "[""NEG-ERR"",""" ++ sub ++ B """,""" ++ reason ++ B """]" = jw_array (qt (B "NEG-ERR") :: [qt sub; qt reason])).
  { rewrite marshal_array. norm_text. reflexivity. }
  rewrite E, parse_label by reflexivity. unfold neg_from_json.
  rewrite (g_array_list _ [mkG (qt (B "NEG-ERR")) (B "NEG-ERR") false; mkG (qt sub) sub false; mkG (qt reason) reason false]).
  - reflexivity.
  - constructor; [apply elem_label; reflexivity|]. constructor; [apply elem_raw, H1|]. constructor; [apply elem_raw, H2|constructor].
  - discriminate.
Qed.
Print Assumptions C42_error_read.

(** A comma among the first three bytes crashes the parser; a quote in an id ends the field. *)
Theorem C42_parser_crash_refuted : (exists t, parse_neg t = Panic) /\
  (exists m sub, m = NClose sub /\ parse_neg (neg_marshal m) = Ok (Some (NClose (B "a"))) /\ sub <> B "a").
Proof.
  split; [exists (B "[1,2]"); vm_compute; reflexivity|].
  exists (NClose (B "a"",""b")), (B "a"",""b"). split; [reflexivity|]. split; [vm_compute; reflexivity|discriminate].
Qed.
Print Assumptions C42_parser_crash_refuted.
