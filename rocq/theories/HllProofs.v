(** Lemmas for C34 and C35. *)
From Verif Require Import Base EventModel TagsModel TagsProofs FilterModel FilterProofs Nip19Model PowProofs HllModel.
Local Open Scope N_scope.

Lemma be_value s : Z.of_N (be s) = value s.
Proof.
  unfold be. assert (G : forall a, Z.of_N (fold_left (fun a c => a * 256 + val c) s a) = (Z.of_N a * 2 ^ (8 * Z.of_nat (length s)) + value s)%Z).
  { induction s as [|c s IH]; intro a; cbn [fold_left length value]; [cbn; lia|]. rewrite IH.
    replace (8 * Z.of_nat (S (length s)))%Z with (8 + 8 * Z.of_nat (length s))%Z by lia. rewrite Z.pow_add_r by lia. change (2 ^ 8)%Z with 256%Z. lia. }
  rewrite G. lia.
Qed.
Lemma mod_next x n : x mod 2 ^ (n + 1) = x mod 2 ^ n + 2 ^ n * N.b2n (N.testbit x n).
Proof.
  rewrite N.pow_add_r, N.mod_mul_r by (try apply N.pow_nonzero; discriminate). rewrite N.testbit_spec'. reflexivity.
Qed.
Lemma clz56_loop_spec n x : let c := clz56_loop n x in let v := x mod 2 ^ N.of_nat n in
  c <= N.of_nat n /\ v < 2 ^ (N.of_nat n - c) /\ (c < N.of_nat n -> 2 ^ (N.of_nat n - c - 1) <= v).
Proof.
  induction n as [|n IH]; [cbn; rewrite N.mod_1_r; lia|]. cbv zeta in *. cbn [clz56_loop].
  replace (N.of_nat (S n)) with (N.of_nat n + 1) by lia. rewrite mod_next. assert (M := N.mod_lt x (2 ^ N.of_nat n) (N.pow_nonzero 2 _ ltac:(discriminate))).
  destruct (N.testbit x (N.of_nat n)); cbn [N.b2n].
  - rewrite !N.sub_0_r. replace (N.of_nat n + 1 - 1) with (N.of_nat n) by lia. rewrite N.pow_add_r. change (2 ^ 1) with 2. lia.
  - destruct IH as (A & C & D). rewrite N.mul_0_r, N.add_0_r. replace (N.of_nat n + 1 - (1 + clz56_loop n x)) with (N.of_nat n - clz56_loop n x) by lia.
    split; [lia|]. split; [exact C|]. intro H. apply D. lia.
Qed.

Definition rank (x : str) : N := clz56 (be x) + 1.
Definition is_rank (x : str) (r : Z) : Prop := (1 <= r <= 57 /\ value (tl x) < 2 ^ (57 - r) /\ (r < 57 -> 2 ^ (56 - r) <= value (tl x)))%Z.
Lemma rank_spec x : length x = 8%nat -> is_rank x (Z.of_N (rank x)).
Proof.
  intro L. destruct x as [|c r]; [discriminate|]. cbn [length] in L. assert (Lr : length r = 7%nat) by lia.
  assert (E : be (c :: r) mod 2 ^ 56 = be r).
  { apply N2Z.inj. rewrite N2Z.inj_mod, !be_value. cbn [value]. rewrite Lr. change (Z.of_N (2 ^ 56)) with (2 ^ (8 * Z.of_nat 7))%Z.
    assert (B := value_bounds r). rewrite Lr in B. rewrite Z.add_comm, Z.mod_add by discriminate. apply Z.mod_small. exact B. }
  assert (S := clz56_loop_spec 56 (be (c :: r))). cbv zeta in S. change (N.of_nat 56) with 56 in S. rewrite E in S.
  unfold rank, clz56. set (z := clz56_loop 56 (be (c :: r))) in *. destruct S as (A & B1 & C). unfold is_rank. cbn [tl]. rewrite <- be_value.
  split; [lia|]. split.
  - replace (57 - Z.of_N (z + 1))%Z with (Z.of_N (56 - z)) by lia. change 2%Z with (Z.of_N 2). rewrite <- N2Z.inj_pow. lia.
  - intro H. replace (56 - Z.of_N (z + 1))%Z with (Z.of_N (56 - z - 1)) by lia. change 2%Z with (Z.of_N 2). rewrite <- N2Z.inj_pow. specialize (C ltac:(lia)). lia.
Qed.

(** Registers by index *)
Definition reg (regs : registers) (j : nat) : N := nth j regs 0.
Lemma regs_ext (a b : registers) : length a = length b -> (forall j, (j < length a)%nat -> reg a j = reg b j) -> a = b.
Proof. intros L H. apply nth_ext with (d := 0) (d' := 0); [exact L|exact H]. Qed.
Lemma nth_set {A} (l : list A) i j x d : (i < length l)%nat -> nth j (set_nth i x l) d = if Nat.eqb i j then x else nth j l d.
Proof.
  revert i j. induction l as [|y l IH]; intros [|i] [|j] H; cbn [set_nth nth length Nat.eqb] in *; try lia; try reflexivity. apply IH. lia.
Qed.
Definition head_index (x : str) : nat := match x with c :: _ => N.to_nat (val c) | [] => 0 end.
Lemma put_spec regs x : length regs = 256%nat -> length x = 8%nat ->
  exists r, put regs x = Ok r /\ length r = 256%nat /\ forall j, (j < 256)%nat -> reg r j = N.max (reg regs j) (if Nat.eqb (head_index x) j then rank x else 0).
Proof.
  intros L Lx. destruct x as [|c t]; [discriminate|]. unfold put. fold (rank (c :: t)). assert (V := val_lt c).
  destruct (nth_error regs (N.to_nat (val c))) as [v|] eqn:E; [|apply nth_error_None in E; lia].
  assert (Ev : reg regs (N.to_nat (val c)) = v) by (apply nth_error_nth; exact E).
  eexists. split; [reflexivity|]. cbn [head_index]. destruct (N.ltb_spec v (rank (c :: t))) as [H|H].
  - split; [rewrite set_nth_length; exact L|]. intros j Hj. unfold reg in *. rewrite nth_set by lia. destruct (Nat.eqb_spec (N.to_nat (val c)) j) as [<-|NE]; lia.
  - split; [exact L|]. intros j Hj. destruct (Nat.eqb_spec (N.to_nat (val c)) j) as [<-|NE]; lia.
Qed.
Lemma merge_spec a : forall b, (length b <= length a)%nat ->
  exists r, merge_registers a b = Ok r /\ length r = length a /\ forall j, reg r j = N.max (reg a j) (reg b j).
Proof.
  induction a as [|x a IH]; intros [|y b] L; cbn [merge_registers length] in *; try lia.
  - exists []. split; [reflexivity|]. split; [reflexivity|]. intros [|j]; reflexivity.
  - eexists. split; [reflexivity|]. split; [reflexivity|]. intros [|j]; unfold reg; cbn [nth]; rewrite N.max_0_r; reflexivity.
  - destruct (IH b ltac:(lia)) as (r & E & Lr & R). rewrite E. cbn [obind]. eexists. split; [reflexivity|]. split; [cbn [length]; rewrite Lr; reflexivity|].
    intros [|j]; unfold reg in *; cbn [nth]; [destruct (N.ltb_spec x y); lia|apply R].
Qed.
Lemma merge_long a : forall b, (length a < length b)%nat -> merge_registers a b = Panic.
Proof. induction a as [|x a IH]; intros [|y b] L; cbn [merge_registers length] in *; try lia; [reflexivity|]. rewrite IH by lia. reflexivity. Qed.

(** The level of a register given the windows added *)
Definition level (xs : list str) (j : nat) : N := fold_right (fun x m => N.max (if Nat.eqb (head_index x) j then rank x else 0) m) 0 xs.
Lemma level_app a b j : level (a ++ b) j = N.max (level a j) (level b j).
Proof. induction a as [|x a IH]; cbn [app level fold_right]; [symmetry; apply N.max_0_l|]. fold (level (a ++ b) j). fold (level a j). rewrite IH. lia. Qed.
Lemma level_in xs j x : In x xs -> head_index x = j -> rank x <= level xs j.
Proof.
  induction xs as [|y xs IH]; [contradiction|]. cbn [level fold_right]. fold (level xs j). intros [->|H] E.
  - rewrite E, Nat.eqb_refl. lia.
  - specialize (IH H E). lia.
Qed.
Lemma level_attained xs j : level xs j = 0 \/ exists x, In x xs /\ head_index x = j /\ level xs j = rank x.
Proof.
  induction xs as [|y xs IH]; [left; reflexivity|]. cbn [level fold_right]. fold (level xs j).
  destruct (Nat.eqb_spec (head_index y) j) as [E|E].
  - destruct (N.le_ge_cases (level xs j) (rank y)) as [H|H].
    + right. exists y. split; [left; reflexivity|]. split; [exact E|]. lia.
    + destruct IH as [IH|(x & H1 & H2 & H3)]; [right; exists y; split; [left; reflexivity|]; split; [exact E|]; lia|]. right. exists x. split; [right; exact H1|]. split; [exact H2|]. lia.
  - rewrite N.max_0_l. destruct IH as [IH|(x & H1 & H2 & H3)]; [left; exact IH|]. right. exists x. split; [right; exact H1|]. auto.
Qed.
Lemma level_incl a b j : incl a b -> level a j <= level b j.
Proof.
  intro H. induction a as [|x a IH]; cbn [level fold_right]; [lia|]. fold (level a j). apply N.max_lub.
  - destruct (Nat.eqb_spec (head_index x) j) as [E|E]; [|lia]. apply level_in; [apply H; left; reflexivity|exact E].
  - apply IH. intros y Hy. apply H. right. exact Hy.
Qed.

(** Windows *)
Definition window (offset : nat) (key : str) : str := firstn 8 (skipn offset key).
Lemma window_length offset key : (offset <= 24)%nat -> length key = 32%nat -> length (window offset key) = 8%nat.
Proof. intros H L. unfold window. apply firstn_length_le. rewrite skipn_length. lia. Qed.
Lemma hex_encode_cons1 c s : hex_encode (c :: s) = hex_encode [c] ++ hex_encode s.
Proof. reflexivity. Qed.
Lemma hex_skip n : forall s, skipn (n * 2) (hex_encode s) = hex_encode (skipn n s).
Proof.
  induction n as [|n IH]; intro s; [reflexivity|]. destruct s as [|c s]; [reflexivity|]. cbn [Nat.mul Nat.add skipn]. rewrite <- IH. reflexivity.
Qed.
Lemma hex_take n : forall s, firstn (n * 2) (hex_encode s) = hex_encode (firstn n s).
Proof.
  induction n as [|n IH]; intro s; [reflexivity|]. destruct s as [|c s]; [reflexivity|]. cbn [Nat.mul Nat.add firstn]. rewrite (hex_encode_cons1 c (firstn n s)), <- IH. reflexivity.
Qed.
Lemma add_hex_bytes offset regs key : add_hex offset regs (hex_encode key) = add_bytes offset regs key.
Proof.
  unfold add_hex, add_bytes. rewrite hex_encode_length.
  destruct (Nat.ltb_spec (2 * length key) (offset * 2 + 16)) as [H|H], (Nat.ltb_spec (length key) (offset + 8)) as [H2|H2]; try reflexivity; try lia.
  rewrite hex_skip. change 16%nat with (8 * 2)%nat. rewrite hex_take, hex_decode_encode. reflexivity.
Qed.

(** ** Building sketches *)
Inductive build := BNew | BAdd (b : build) (key : str) | BAddHex (b : build) (key : str) | BMerge (a b : build).
Fixpoint run (offset : nat) (b : build) : outcome registers :=
  match b with
  | BNew => hll_new (Z.of_nat offset)
  | BAdd b k => obind (run offset b) (fun r => add_bytes offset r k)
  | BAddHex b k => obind (run offset b) (fun r => add_hex offset r (hex_encode k))
  | BMerge a b => obind (run offset a) (fun r => obind (run offset b) (fun o => merge_registers r o))
  end.
Fixpoint keys (b : build) : list str :=
  match b with BNew => [] | BAdd b k => k :: keys b | BAddHex b k => k :: keys b | BMerge a b => keys a ++ keys b end.

Lemma run_spec offset b : (offset <= 24)%nat -> Forall (fun k => length k = 32%nat) (keys b) ->
  exists r, run offset b = Ok r /\ length r = 256%nat /\ forall j, (j < 256)%nat -> reg r j = level (map (window offset) (keys b)) j.
Proof.
  intros Ho. assert (A : forall r k b0, length r = 256%nat -> length k = 32%nat -> (forall j, (j < 256)%nat -> reg r j = level (map (window offset) b0) j) ->
    exists r', add_bytes offset r k = Ok r' /\ length r' = 256%nat /\ forall j, (j < 256)%nat -> reg r' j = level (map (window offset) (k :: b0)) j).
  { intros r k b0 Lr Lk R. unfold add_bytes. destruct (Nat.ltb_spec (length k) (offset + 8)); [lia|]. fold (window offset k).
    destruct (put_spec r (window offset k) Lr (window_length _ _ Ho Lk)) as (r' & E & L' & R'). exists r'. split; [exact E|]. split; [exact L'|].
    intros j Hj. rewrite R', R by exact Hj. cbn [map level fold_right]. fold (level (map (window offset) b0) j). lia. }
  induction b as [|b IH k|b IH k|a IHa b IHb]; intro F; cbn [run keys] in *.
  - unfold hll_new, valid_offset. destruct (Z.leb_spec 0 (Z.of_nat offset)); [|lia]. destruct (Z.leb_spec (Z.of_nat offset) 24); [|lia]. cbn [andb].
    exists (repeat 0 256). split; [reflexivity|]. split; [reflexivity|]. intros j Hj. unfold reg. rewrite nth_repeat. reflexivity.
  - inversion F as [|? ? Fk Fb]; subst. destruct (IH Fb) as (r & E & L & R). rewrite E. cbn [obind]. apply A; assumption.
  - inversion F as [|? ? Fk Fb]; subst. destruct (IH Fb) as (r & E & L & R). rewrite E. cbn [obind]. rewrite add_hex_bytes. apply A; assumption.
  - apply Forall_app in F as [Fa Fb]. destruct (IHa Fa) as (ra & Ea & La & Ra). destruct (IHb Fb) as (rb & Eb & Lb & Rb). rewrite Ea, Eb. cbn [obind].
    destruct (merge_spec ra rb ltac:(lia)) as (r & E & L & R). exists r. split; [exact E|]. split; [lia|]. intros j Hj. rewrite R, Ra, Rb, map_app, level_app by exact Hj. reflexivity.
Qed.

(** ** Offsets *)
Lemma valid_hex_nibble v : valid_32byte_hex v = true -> exists c n, nth_error v 32 = Some c /\ hex_val c = Some n /\ n < 16.
Proof.
  unfold valid_32byte_hex. intro H. apply andb_true_iff in H as [H _]. apply andb_true_iff in H as [H L]. apply Nat.eqb_eq in L.
  destruct (nth_error v 32) as [c|] eqn:E; [|apply nth_error_None in E; lia]. exists c.
  rewrite forallb_forall in H. specialize (H c (nth_error_In _ _ E)).
  assert (K : (negb (is_lower_hex_char c) || match hex_val c with Some n => n <? 16 | None => false end) = true) by (apply (bytes_forallb (fun c => negb (is_lower_hex_char c) || match hex_val c with Some n => n <? 16 | None => false end)); vm_compute; reflexivity).
  rewrite H in K. cbn [negb orb] in K. destruct (hex_val c) as [n|]; [|discriminate]. exists n. split; [reflexivity|]. split; [reflexivity|]. apply N.ltb_lt. exact K.
Qed.
Lemma offset_of_range v : (valid_32byte_hex v = true -> 8 <= offset_of v <= 23)%Z.
Proof. intro H. destruct (valid_hex_nibble v H) as (c & n & E1 & E2 & E3). unfold offset_of, nibble. rewrite E1, E2. lia. Qed.

Lemma filter_offset_shape f : (0 <= offset_for_filter f)%Z ->
  exists name kind v, ((name = B "p" /\ kind = 3) \/ (name = B "e" /\ kind = 7) \/ (name = B "E" /\ kind = 1111))%Z /\
    f_tags f = [(name, Some [v])] /\ f_kinds f = Some [kind] /\ valid_32byte_hex v = true /\ offset_for_filter f = offset_of v.
Proof.
  unfold offset_for_filter. intro H.
  destruct (_ || _) eqn:G; [lia|]. rewrite !orb_false_iff in G. destruct G as [[[[[[G1 G2] G3] G4] G5] G6] G7].
  apply negb_false_iff, Nat.eqb_eq in G5, G7.
  destruct (f_tags f) as [|[name vs] [|? ?]] eqn:T; cbn [length] in G7; try lia.
  destruct (f_kinds f) as [[|kind [|? ?]]|] eqn:K; cbn [oslice length] in G5; try lia.
  cbn [assoc oslice] in *.
  assert (S : forall k0, (0 <= match oslice vs with [v] => if valid_32byte_hex v && (kind =? k0)%Z then match nibble v with Some n => Z.of_N n + 8 | None => -1 end else -1 | _ => -1 end)%Z ->
    exists v, vs = Some [v] /\ kind = k0 /\ valid_32byte_hex v = true /\ match oslice vs with [v] => if valid_32byte_hex v && (kind =? k0)%Z then match nibble v with Some n => (Z.of_N n + 8)%Z | None => (-1)%Z end else (-1)%Z | _ => (-1)%Z end = offset_of v).
  { intros k0 H0. destruct vs as [[|v [|? ?]]|]; cbn [oslice] in *; try lia. destruct (valid_32byte_hex v) eqn:V; cbn [andb] in *; [|lia].
    destruct (Z.eqb_spec kind k0) as [->|NE]; [|lia]. exists v. split; [reflexivity|]. split; [reflexivity|]. split; [exact V|].
    unfold offset_of. destruct (nibble v); [reflexivity|lia]. }
  destruct (seqb_spec (B "p") name) as [<-|N1].
  - destruct (S 3%Z H) as (v & -> & -> & V & E). exists (B "p"), 3%Z, v. rewrite E. auto 10.
  - destruct (seqb_spec (B "e") name) as [<-|N2].
    + destruct (S 7%Z H) as (v & -> & -> & V & E). exists (B "e"), 7%Z, v. rewrite E. auto 10.
    + destruct (seqb_spec (B "E") name) as [<-|N3]; [|lia].
      destruct (S 1111%Z H) as (v & -> & -> & V & E). exists (B "E"), 1111%Z, v. rewrite E. auto 10.
Qed.
Lemma pairs_are_offsets e v o : In (v, o) (pairs_for_event e) -> valid_32byte_hex v = true /\ o = offset_of v.
Proof.
  assert (One : forall t, In (v, o) (match t with Some (_ :: v0 :: _) => if valid_32byte_hex v0 then [(v0, offset_of v0)] else [] | _ => [] end) -> valid_32byte_hex v = true /\ o = offset_of v).
  { intros [[|a [|b t]]|]; try contradiction. destruct (valid_32byte_hex b) eqn:V; [|contradiction]. intros [E|[]]. injection E as <- <-. auto. }
  unfold pairs_for_event. destruct (ev_kind e =? 3)%Z.
  - intro H. apply in_flat_map in H as (t & _ & H). destruct t as [|k [|w t]]; try contradiction.
    destruct (seqb k (B "p") && valid_32byte_hex w) eqn:V; [|contradiction]. destruct H as [E|[]]. injection E as <- <-. apply andb_true_iff in V as [_ V]. auto.
  - destruct (ev_kind e =? 7)%Z; [apply One|]. destruct (ev_kind e =? 1111)%Z; [apply One|contradiction].
Qed.
