(** The size of the frames that Reconcile and Start write (nip77/negentropy/negentropy.go). *)
From Verif Require Import Base Nip19Model NegModel.
Import ListNotations.
Local Open Scope Z_scope.

Ltac pok := let H := fresh in intro H; match type of H with Ok (?a, ?b) = Ok (?x, ?y) =>
  assert (x = a) as -> by congruence; assert (y = b) as -> by congruence; clear H end.
Ltac pok1 := let H := fresh in intro H; match type of H with Ok ?a = Ok ?x => assert (x = a) as -> by congruence; clear H end.

Lemma varint_digits_len : forall fuel n acc l, varint_digits fuel n acc = Some l -> (length l <= fuel + length acc)%nat.
Proof.
  induction fuel as [|fuel IH]; intros n acc l; cbn [varint_digits]; destruct (n =? 0)%N; try discriminate; intro H.
  - injection H as <-. lia.
  - injection H as <-. lia.
  - apply IH in H. cbn [length] in H. lia.
Qed.
Lemma mark_len l : length (mark l) = length l.
Proof. induction l as [|d [|e r] IH]; [reflexivity..|]. cbn [mark length] in *. rewrite IH. reflexivity. Qed.
Lemma encode_varint_len n v : encode_varint n = Ok v -> (length v <= 8)%nat.
Proof.
  unfold encode_varint. destruct (n =? 0); [intro H; injection H as <-; cbn; lia|]. destruct (n <? 0); [discriminate|].
  destruct (varint_digits 8 (Z.to_N n) []) as [l|] eqn:E; [|discriminate]. intro H. injection H as <-. rewrite map_length, mark_len.
  apply varint_digits_len in E. cbn [length] in E. lia.
Qed.
Lemma write_varint_len n v : write_varint n = Ok v -> (length v <= 16)%nat.
Proof.
  unfold write_varint. destruct (encode_varint n) as [b| |] eqn:E; try discriminate. cbn [obind]. intro H. injection H as <-.
  rewrite hex_encode_length. apply encode_varint_len in E. lia.
Qed.
Lemma write_varint_zero v : write_varint 0 = Ok v -> length v = 2%nat.
Proof. intro H. injection H as <-. reflexivity. Qed.
Lemma write_byte_len n : length (write_byte n) = 2%nat.
Proof. reflexivity. Qed.
Lemma write_timestamp_len last ts s l : write_timestamp last ts = Ok (s, l) -> (length s <= 16)%nat.
Proof.
  unfold write_timestamp. destruct (ts =? max_ts).
  - destruct (write_varint 0) as [v| |] eqn:E; try discriminate. cbn [obind]. intro H. injection H as <- <-. apply write_varint_len in E. exact E.
  - destruct (write_varint _) as [v| |] eqn:E; try discriminate. cbn [obind]. intro H. injection H as <- <-. apply write_varint_len in E. exact E.
Qed.
Lemma write_bound_len last b s l : write_bound last b = Ok (s, l) -> (length s <= 32 + length (it_id b))%nat.
Proof.
  unfold write_bound. destruct (write_timestamp last (it_ts b)) as [[t l1]| |] eqn:E; try discriminate. cbn [obind].
  destruct (write_varint _) as [v| |] eqn:E2; try discriminate. cbn [obind]. intro H. injection H as <- <-.
  apply write_timestamp_len in E. apply write_varint_len in E2. rewrite !app_length. lia.
Qed.

Section Frame.
Variable sha : str -> str.

Lemma fingerprint_len items i j f : fingerprint sha items i j = Ok f -> (length f <= 32)%nat.
Proof.
  unfold fingerprint, get_fingerprint. destruct (encode_varint _) as [v| |]; try discriminate. cbn [obind]. intro H.
  match type of H with Ok ?y = _ => assert (f = y) as -> by congruence end. rewrite hex_encode_length, firstn_length. lia.
Qed.

Definition ids64 (l : list item) : Prop := Forall (fun x => length (it_id x) = 64%nat) l.

Lemma ids64_range l i j : ids64 l -> ids64 (range l i j).
Proof.
  intro H. unfold ids64, range in *. rewrite Forall_forall in *. intros x Hx. apply H.
  rewrite <- (firstn_skipn i l). apply in_or_app. right. rewrite <- (firstn_skipn (j - i) (skipn i l)). apply in_or_app. left. exact Hx.
Qed.
Lemma ids_text_len l : ids64 l -> length (ids_text l) = (64 * length l)%nat.
Proof. induction 1 as [|x l Hx H IH]; [reflexivity|]. unfold ids_text in *. cbn [flat_map length]. rewrite app_length, IH, Hx. lia. Qed.
Lemma nth_ids64 l i x : ids64 l -> nth_error l i = Some x -> length (it_id x) = 64%nat.
Proof. intros H E. apply nth_error_In in E. unfold ids64 in H. rewrite Forall_forall in H. apply H, E. Qed.

Lemma minimal_bound_len p c b : get_minimal_bound p c = Ok b -> (length (it_id b) <= length (it_id c))%nat.
Proof.
  unfold get_minimal_bound. destruct (negb _); [intro H; injection H as <-; cbn; lia|].
  destruct (shared_prefix 16 (it_id c) (it_id p)) as [k| |]; try discriminate. cbn [obind]. destruct (_ <? _)%nat; [discriminate|].
  intro H. injection H as <-. cbn [it_id]. rewrite firstn_length. lia.
Qed.

Lemma split_loop_len items num upper ub : ids64 items -> forall k last i curr s l,
  split_loop sha items num upper ub last k i curr = Ok (s, l) -> (length s <= k * (66 + Nat.max 64 (length (it_id ub))))%nat.
Proof.
  intro W. induction k as [|k IH]; intros last i curr s l; cbn [split_loop].
  - intro H. injection H as <- <-. cbn; lia.
  - destruct (fingerprint sha items curr _) as [f| |] eqn:F; try discriminate. cbn [obind]. apply fingerprint_len in F.
    match goal with |- obind ?x _ = _ -> _ => destruct x as [nb| |] eqn:NB; try discriminate end. cbn [obind].
    assert (LB : (length (it_id nb) <= Nat.max 64 (length (it_id ub)))%nat).
    { destruct (Nat.eqb _ _); [injection NB as <-; lia|].
      destruct (nth_error items _) as [p|]; [|discriminate]. destruct (nth_error items (curr + _)) as [c|] eqn:C; [|discriminate].
      apply minimal_bound_len in NB. apply (nth_ids64 _ _ _ W) in C. lia. }
    destruct (write_bound last nb) as [[b l1]| |] eqn:WB; try discriminate. cbn [obind]. apply write_bound_len in WB.
    destruct (split_loop sha items num upper ub l1 k (i + 1) _) as [[r l2]| |] eqn:R; try discriminate. cbn [obind].
    apply IH in R. pok. rewrite !app_length, write_byte_len. lia.
Qed.

Lemma split_range_len items lower upper ub last s l : ids64 items -> (upper <= length items)%nat ->
  split_range sha items lower upper ub last = Ok (s, l) -> (length s <= 2048 + 16 * Nat.max 64 (length (it_id ub)))%nat.
Proof.
  intros W U. unfold split_range, buckets. destruct (Nat.ltb_spec (upper - lower) (16 * 2)) as [L|L].
  - destruct (write_bound last ub) as [[b l1]| |] eqn:WB; try discriminate. cbn [obind]. apply write_bound_len in WB.
    destruct (write_varint _) as [n| |] eqn:WN; try discriminate. cbn [obind]. apply write_varint_len in WN. pok.
    rewrite !app_length, write_byte_len, ids_text_len by (apply ids64_range, W).
    assert (R : (length (range items lower upper) <= upper - lower)%nat) by (unfold range; rewrite firstn_length; lia). lia.
  - intro H. apply (split_loop_len _ _ _ _ W) in H. lia.
Qed.

Lemma start_len items m : ids64 items -> start sha items = Ok m -> (length m <= 2 * 1600)%nat.
Proof.
  unfold start. intros W. destruct (split_range sha items 0 (length items) infinite_bound 0) as [[s l]| |] eqn:E; try discriminate. cbn [obind].
  apply split_range_len in E; [|exact W|lia]. cbn [infinite_bound it_id length Nat.max] in E. pok1. rewrite app_length, write_byte_len. lia.
Qed.

(** The ids of the server's answer *)
Lemma response_ids_len L full : forall l acc cnt idx resp c cut, ids64 l ->
  (Z.of_nat (length full) / 2 + Z.of_nat (length acc) / 2 <= L - 200 + 32 /\ (acc = [] \/ Z.of_nat (length full) / 2 + (Z.of_nat (length acc) - 64) / 2 <= L - 200)) ->
  response_ids (Some L) full acc cnt idx l = (resp, c, cut) ->
  (resp = [] \/ Z.of_nat (length full) / 2 + (Z.of_nat (length resp) - 64) / 2 <= L - 200) /\
  (forall i it, cut = Some (i, it) -> In it l /\ L - 200 < Z.of_nat (length full) / 2 + Z.of_nat (length resp) / 2).
Proof.
  induction l as [|x l IH]; intros acc cnt idx resp c cut W [I1 I2]; cbn [response_ids].
  - intro H. injection H as <- <- <-. split; [exact I2|]. discriminate.
  - inversion W as [|? ? Wx Wl]; subst. cbn [over_limit]. destruct (Z.ltb_spec (L - 200) (Z.of_nat (length full) / 2 + Z.of_nat (length acc) / 2)) as [O|O].
    + intro H. injection H as <- <- <-. split; [exact I2|]. intros i it E. injection E as <- <-. split; [left; reflexivity|exact O].
    + intro H. assert (A : Z.of_nat (length (acc ++ it_id x)) = Z.of_nat (length acc) + 64) by (rewrite app_length, Wx; lia).
      destruct (fun K => IH (acc ++ it_id x) _ _ _ _ _ Wl K H) as [H1 H2].
      { rewrite A. split; [|right; replace (Z.of_nat (length acc) + 64 - 64) with (Z.of_nat (length acc)) by lia; exact O].
        replace (Z.of_nat (length acc) + 64) with (Z.of_nat (length acc) + 32 * 2) by lia. rewrite Z.div_add by lia. lia. }
      split; [exact H1|]. intros i it E. destruct (H2 i it E) as [H3 H4]. split; [right; exact H3|exact H4].
Qed.

(** ** One range *)
Lemma end_iteration_len items L st full partial out upper bound sk h hn st' stop :
  end_iteration sha items (Some L) st full partial out upper bound sk h hn = Ok (st', stop) ->
  n_prev_bound st' = bound /\ n_in st' = it_ts bound /\
  (stop = false -> Z.of_nat (length (n_full st')) <= 2 * (L - 200) + 2 /\ Z.of_nat (length (n_full st')) / 2 <= L - 200 + 1) /\
  (length (n_full st') <= Nat.max (length full + 66) (length full + length partial))%nat /\
  (stop = true -> (length (n_full st') <= length full + 66)%nat).
Proof.
  unfold end_iteration, over_limit. destruct (Z.ltb_spec (L - 200) (Z.of_nat (length full) / 2 + Z.of_nat (length partial) / 2)) as [O|O].
  - destruct (fingerprint sha items upper (length items)) as [f| |] eqn:F; try discriminate. cbn [obind]. apply fingerprint_len in F.
    destruct (write_bound out infinite_bound) as [[b o]| |] eqn:WB; try discriminate. cbn [obind]. apply write_bound_len in WB. cbn [infinite_bound it_id length] in WB.
    pok. cbn [n_prev_bound n_in n_full]. split; [reflexivity|]. split; [reflexivity|]. split; [discriminate|].
    rewrite !app_length, write_byte_len. lia.
  - pok. cbn [n_prev_bound n_in n_full]. split; [reflexivity|]. split; [reflexivity|]. rewrite app_length.
    pose proof (Z.div_mod (Z.of_nat (length full)) 2 ltac:(lia)). pose proof (Z.mod_pos_bound (Z.of_nat (length full)) 2 ltac:(lia)).
    pose proof (Z.div_mod (Z.of_nat (length partial)) 2 ltac:(lia)). pose proof (Z.mod_pos_bound (Z.of_nat (length partial)) 2 ltac:(lia)).
    split; [intros _; split; [lia|apply Z.div_le_upper_bound; lia]|]. split; [lia|discriminate].
Qed.

(** What a range takes from the message *)
Lemma read_varint_loop_len : forall fuel res r v r', read_varint_loop fuel res r = Ok (v, r') -> (length r' <= length r)%nat.
Proof.
  induction fuel as [|fuel IH]; intros res r v r'; cbn [read_varint_loop]; [discriminate|]. unfold read_hex_byte.
  destruct r as [|a [|b r]]; try discriminate. destruct (hex_val a); [|discriminate]. destruct (hex_val b); [|discriminate]. cbn [obind].
  destruct (_ <? 128)%N; [intro H; injection H as <- <-; cbn [length]; lia|]. intro H. apply IH in H. cbn [length]. lia.
Qed.
Lemma read_varint_len r v r' : read_varint r = Ok (v, r') -> (length r' <= length r)%nat.
Proof. apply read_varint_loop_len. Qed.
Lemma read_string_len n r a r' : read_string n r = Ok (a, r') -> (length a + length r' = length r)%nat.
Proof.
  unfold read_string. destruct (n <? 0); [discriminate|]. destruct (Z.ltb_spec (Z.of_nat (length r)) n); [discriminate|]. pok.
  rewrite firstn_length, skipn_length. lia.
Qed.
Lemma read_bound_len last r b r' : read_bound last r = Ok (b, r') -> (length (it_id b) + length r' <= length r)%nat.
Proof.
  unfold read_bound, read_timestamp. destruct (read_varint r) as [[d r1]| |] eqn:E1; try discriminate. cbn [obind]. apply read_varint_len in E1.
  assert (G : forall ts, obind (read_varint r1) (fun '(n, r2) => obind (read_string (wrap64 (n * 2)) r2) (fun '(id, r3) => Ok (mkItem ts id, r3))) = Ok (b, r') ->
    (length (it_id b) + length r' <= length r)%nat).
  { intro ts. destruct (read_varint r1) as [[n r2]| |] eqn:E2; try discriminate. cbn [obind]. apply read_varint_len in E2.
    destruct (read_string _ r2) as [[id r3]| |] eqn:E3; try discriminate. cbn [obind]. apply read_string_len in E3. pok. cbn [it_id]. lia. }
  destruct (d =? 0); cbn [obind]; apply G.
Qed.
Lemma read_ids_len : forall fuel n r l r', read_ids fuel n r = Ok (l, r') -> (length r' <= length r)%nat.
Proof.
  induction fuel as [|fuel IH]; intros n r l r'; cbn [read_ids]; (destruct (n <=? 0); [pok; lia|]); [discriminate|].
  destruct (read_string 64 r) as [[a r1]| |] eqn:E1; try discriminate. cbn [obind]. apply read_string_len in E1.
  destruct (read_ids fuel (n - 1) r1) as [[ids r2]| |] eqn:E2; try discriminate. cbn [obind]. apply IH in E2. pok. lia.
Qed.

Lemma finish_skip_len st s o : finish_skip st = Ok (s, o) -> (length s <= 34 + length (it_id (n_prev_bound st)))%nat.
Proof.
  unfold finish_skip. destruct (n_skipping st); [|pok; cbn; lia].
  destruct (write_bound (n_out st) (n_prev_bound st)) as [[b l]| |] eqn:E; try discriminate. cbn [obind]. apply write_bound_len in E. pok.
  rewrite app_length, write_byte_len. lia.
Qed.

(** One range. [k]: the characters the ids of the two bounds concerned may take. *)
Lemma iteration_len items L client st r st' r' stop k : ids64 items ->
  Z.of_nat (length (n_full st)) <= 2 * (L - 200) + 2 ->
  (forall b r1, read_bound (n_in st) r = Ok (b, r1) -> (length (it_id (n_prev_bound st)) + Nat.max 64 (length (it_id b)) <= k)%nat) ->
  iteration sha items (Some L) client st r = Ok (st', r', stop) ->
  exists b r1, read_bound (n_in st) r = Ok (b, r1) /\ n_prev_bound st' = b /\ n_in st' = it_ts b /\ (length r' <= length r1)%nat /\
  (stop = false -> Z.of_nat (length (n_full st')) <= 2 * (L - 200) + 2) /\
  (stop = true -> if client then Z.of_nat (length (n_full st')) <= 2 * L - 300 else Z.of_nat (length (n_full st')) <= 2 * L - 180 + Z.of_nat k).
Proof.
  intros W F K. unfold iteration. destruct (read_bound (n_in st) r) as [[b r1]| |] eqn:RB; try discriminate. cbn [obind].
  specialize (K b r1 eq_refl).
  destruct (read_varint r1) as [[mode r2]| |] eqn:RV; try discriminate. cbn [obind]. apply read_varint_len in RV.
  cbv zeta. set (upper := find_lower_bound items (n_prev_index st) (length items) b). clearbody upper.
  assert (FIN : forall partial out sk h hn r3, (length r3 <= length r2)%nat ->
    obind (end_iteration sha items (Some L) st (n_full st) partial out upper b sk h hn) (fun '(s, stop0) => Ok (s, r3, stop0)) = Ok (st', r', stop) ->
    exists b0 r0, Ok (b, r1) = Ok (b0, r0) /\ n_prev_bound st' = b0 /\ n_in st' = it_ts b0 /\ (length r' <= length r0)%nat /\
    (stop = false -> Z.of_nat (length (n_full st')) <= 2 * (L - 200) + 2) /\
    (stop = true -> if client then Z.of_nat (length (n_full st')) <= 2 * L - 300 else Z.of_nat (length (n_full st')) <= 2 * L - 180 + Z.of_nat k)).
  { intros partial out sk h hn r3 L3. destruct (end_iteration _ _ _ _ _ _ _ _ _ _ _ _) as [[s st1]| |] eqn:EE; try discriminate. cbn [obind].
    intro H. assert (st' = s) as -> by congruence. assert (r' = r3) as -> by congruence. assert (stop = st1) as -> by congruence. clear H.
    apply end_iteration_len in EE. destruct EE as (E1 & E2 & E3 & E4 & E5). exists b, r1. split; [reflexivity|]. split; [exact E1|]. split; [exact E2|].
    split; [lia|]. split; [intro Q; apply E3, Q|]. intro Q. specialize (E5 Q). destruct client; lia. }
  destruct (mode mod 256 =? 0); [apply FIN; lia|]. destruct (mode mod 256 =? 1).
  - destruct (read_string 32 r2) as [[theirs r3]| |] eqn:RS; try discriminate. cbn [obind]. apply read_string_len in RS.
    destruct (fingerprint sha items (n_prev_index st) upper) as [ours| |]; try discriminate. cbn [obind].
    destruct (seqb theirs ours); [apply FIN; lia|].
    destruct (finish_skip st) as [[sk o1]| |]; try discriminate. cbn [obind].
    destruct (split_range sha items (n_prev_index st) upper b o1) as [[sp o2]| |]; try discriminate. cbn [obind]. apply FIN. lia.
  - destruct (mode mod 256 =? 2); [|discriminate].
    destruct (read_varint r2) as [[num r3]| |] eqn:RN; try discriminate. cbn [obind]. apply read_varint_len in RN.
    destruct (read_ids (length r3) num r3) as [[ids r4]| |] eqn:RI; try discriminate. cbn [obind]. apply read_ids_len in RI.
    destruct (compare_ids (dedup ids) (range items (n_prev_index st) upper)) as [left_ haves].
    destruct client; [apply FIN; lia|].
    destruct (finish_skip st) as [[sk o1]| |] eqn:FS; try discriminate. cbn [obind]. apply finish_skip_len in FS.
    destruct (response_ids (Some L) (n_full st) [] 0 (n_prev_index st) (range items (n_prev_index st) upper)) as [[resp cnt] cut] eqn:RR.
    assert (WR := ids64_range items (n_prev_index st) upper W).
    apply response_ids_len in RR; [|exact WR|].
    2: { cbn [length]. change (Z.of_nat 0 / 2) with 0. assert (Z.of_nat (length (n_full st)) / 2 <= L - 200 + 1) by (apply Z.div_le_upper_bound; lia). split; [lia|left; reflexivity]. }
    destruct RR as [R1 R2].
    assert (LR : Z.of_nat (length (n_full st)) + Z.of_nat (length resp) <= 2 * (L - 200) + 66).
    { destruct R1 as [-> |R1]; [cbn [length]; lia|].
      pose proof (Z.div_mod (Z.of_nat (length (n_full st))) 2 ltac:(lia)). pose proof (Z.mod_pos_bound (Z.of_nat (length (n_full st))) 2 ltac:(lia)).
      pose proof (Z.div_mod (Z.of_nat (length resp) - 64) 2 ltac:(lia)). pose proof (Z.mod_pos_bound (Z.of_nat (length resp) - 64) 2 ltac:(lia)). lia. }
    assert (CC : forall u e, (match cut with Some (i, it) => (i, it) | None => (upper, b) end) = (u, e) -> (length (it_id e) <= Nat.max 64 (length (it_id b)))%nat).
    { intros u e. destruct cut as [[i it]|].
      - intro Q. injection Q as <- <-. destruct (R2 i it eq_refl) as [Q _]. unfold ids64 in WR. rewrite Forall_forall in WR. rewrite (WR _ Q). lia.
      - intro Q. injection Q as <- <-. lia. }
    destruct (match cut with Some (i, it) => (i, it) | None => (upper, b) end) as [u e]. specialize (CC u e eq_refl).
    destruct (write_bound o1 e) as [[bt o2]| |] eqn:WB; try discriminate. cbn [obind]. apply write_bound_len in WB.
    destruct (write_varint (Z.of_nat cnt)) as [n| |] eqn:WN; try discriminate. cbn [obind]. apply write_varint_len in WN.
    destruct (end_iteration _ _ _ _ _ _ _ _ _ _ _ _) as [[s st1]| |] eqn:EE; try discriminate. cbn [obind].
    intro H. assert (st' = s) as -> by congruence. assert (r' = r4) as -> by congruence. assert (stop = st1) as -> by congruence. clear H.
    apply end_iteration_len in EE. destruct EE as (E1 & E2 & E3 & E4 & E5). exists b, r1. split; [reflexivity|]. split; [exact E1|]. split; [exact E2|].
    split; [lia|]. split; [intro Q; apply E3, Q|]. intro Q. specialize (E5 Q). rewrite !app_length, write_byte_len in E5. lia.
Qed.

(** The bounds that a message names, read without any storage: timestamps and ids as the reader sees them. *)
Fixpoint bounds_in (fuel : nat) (last : Z) (r : str) : list item :=
  match r with
  | [] => []
  | _ =>
    match fuel with
    | O => []
    | S f =>
      match read_bound last r with
      | Ok (b, r1) =>
          b :: match read_varint r1 with
               | Ok (m, r2) =>
                   if m mod 256 =? 0 then bounds_in f (it_ts b) r2
                   else if m mod 256 =? 1 then match read_string 32 r2 with Ok (_, r3) => bounds_in f (it_ts b) r3 | _ => [] end
                   else match read_varint r2 with
                        | Ok (n, r3) => match read_ids (length r3) n r3 with Ok (_, r4) => bounds_in f (it_ts b) r4 | _ => [] end
                        | _ => []
                        end
               | _ => []
               end
      | _ => []
      end
    end
  end.
Definition short (b : item) : Prop := (length (it_id b) <= 64)%nat.

Lemma iteration_rest items L client st r st' r' stop f : iteration sha items (Some L) client st r = Ok (st', r', stop) -> r <> [] ->
  exists b r1, read_bound (n_in st) r = Ok (b, r1) /\ bounds_in (S f) (n_in st) r = b :: bounds_in f (it_ts b) r'.
Proof.
  intros H N. destruct r as [|c0 r0]; [contradiction|]. cbn [bounds_in]. remember (c0 :: r0) as r eqn:Er. clear Er N c0 r0. revert H.
  unfold iteration. destruct (read_bound (n_in st) r) as [[b r1]| |]; try discriminate. cbn [obind].
  destruct (read_varint r1) as [[mode r2]| |]; try discriminate. cbn [obind]. cbv zeta.
  assert (FIN : forall full partial out u sk h hn r3,
    obind (end_iteration sha items (Some L) st full partial out u b sk h hn) (fun '(s, stop0) => Ok (s, r3, stop0)) = Ok (st', r', stop) -> r' = r3).
  { intros. destruct (end_iteration _ _ _ _ _ _ _ _ _ _ _ _) as [[s st1]| |]; try discriminate. cbn [obind] in H. congruence. }
  intro H. exists b, r1. split; [reflexivity|]. f_equal. revert H.
  destruct (mode mod 256 =? 0); [intro H; apply FIN in H; subst; reflexivity|]. destruct (mode mod 256 =? 1).
  - destruct (read_string 32 r2) as [[theirs r3]| |]; try discriminate. cbn [obind].
    destruct (fingerprint sha items _ _) as [ours| |]; try discriminate. cbn [obind].
    destruct (seqb theirs ours); [intro H; apply FIN in H; subst; reflexivity|].
    destruct (finish_skip st) as [[sk o1]| |]; try discriminate. cbn [obind].
    destruct (split_range sha items _ _ b o1) as [[sp o2]| |]; try discriminate. cbn [obind]. intro H; apply FIN in H; subst; reflexivity.
  - destruct (mode mod 256 =? 2); [|discriminate].
    destruct (read_varint r2) as [[num r3]| |]; try discriminate. cbn [obind].
    destruct (read_ids (length r3) num r3) as [[ids r4]| |]; try discriminate. cbn [obind].
    destruct (compare_ids _ _) as [left_ haves]. destruct client; [intro H; apply FIN in H; subst; reflexivity|].
    destruct (finish_skip st) as [[sk o1]| |]; try discriminate. cbn [obind].
    destruct (response_ids _ _ _ _ _ _) as [[resp cnt] cut]. destruct (match cut with Some (i, it) => (i, it) | None => _ end) as [u e].
    destruct (write_bound o1 e) as [[bt o2]| |]; try discriminate. cbn [obind].
    destruct (write_varint (Z.of_nat cnt)) as [n| |]; try discriminate. cbn [obind]. intro H; apply FIN in H; subst; reflexivity.
Qed.

Lemma loop_len items L client : ids64 items -> 400 <= L -> forall fuel st r st',
  Z.of_nat (length (n_full st)) <= 2 * (L - 200) + 2 ->
  reconcile_loop sha fuel items (Some L) client st r = Ok st' ->
  Z.of_nat (length (n_full st')) <= 2 * L - 116 + Z.of_nat (length (it_id (n_prev_bound st)) + length r) /\
  (client = true \/ (short (n_prev_bound st) /\ Forall short (bounds_in fuel (n_in st) r)) -> Z.of_nat (length (n_full st')) <= 2 * L).
Proof.
  intros W HL. induction fuel as [|fuel IH]; intros st r st' F.
  - destruct r as [|c r]; cbn [reconcile_loop]; [intro H; assert (st' = st) as -> by congruence; lia|discriminate].
  - destruct r as [|c r]; cbn [reconcile_loop]; [intro H; assert (st' = st) as -> by congruence; lia|].
    remember (c :: r) as s eqn:Es. assert (N : s <> []) by (subst; discriminate). clear Es c r.
    destruct (iteration sha items (Some L) client st s) as [[[st1 r1] stop]| |] eqn:E; try discriminate. cbn [obind]. intro H.
    destruct (iteration_rest items L client st s st1 r1 stop fuel E N) as (b & r2 & RB & BI).
    assert (LB := read_bound_len _ _ _ _ RB).
    destruct (iteration_len items L client st s st1 r1 stop (length (it_id (n_prev_bound st)) + Nat.max 64 (length (it_id b))) W F) with (2 := E) as (b' & r2' & RB' & P1 & P2 & P3 & P4 & P5).
    { intros b0 r0 Q. assert (b0 = b) as -> by congruence. lia. }
    assert (b' = b) as -> by congruence. assert (r2' = r2) as -> by congruence.
    destruct stop.
    + assert (st' = st1) as -> by congruence. specialize (P5 eq_refl). split.
      * destruct client; lia.
      * rewrite BI. intros [-> |[S1 S2]]; [lia|]. inversion S2 as [|? ? Sb Sr]; subst. unfold short in *. destruct client; lia.
    + specialize (P4 eq_refl). destruct (IH st1 r1 st' P4 H) as [I1 I2]. split; [rewrite P1 in I1; lia|]. rewrite BI.
      intros [Q|[S1 S2]]; [apply I2; left; exact Q|]. inversion S2 as [|? ? Sb Sr]; subst. apply I2. right. rewrite P2. split; assumption.
Qed.
End Frame.
