(** C34 and C35: counting sketches and their offsets. *)
From Verif Require Import Base EventModel TagsModel TagsProofs FilterModel FilterProofs Nip19Model PowProofs HllModel HllProofs.
Local Open Scope N_scope.

(** * C34 *)
(** The sketch of a set of 32-byte keys at an offset, said without the code: register j is 0 when no key has byte j at the offset, and
    otherwise the largest rank among those keys, where the rank of a key is one more than the number of leading zero bits of the seven bytes
    that follow. *)
Definition selects (offset : nat) (key : str) (j : nat) : Prop := exists c, nth_error key offset = Some c /\ N.to_nat (val c) = j.
Definition key_rank (offset : nat) (key : str) (r : Z) : Prop :=
  let v := value (firstn 7 (skipn (S offset) key)) in
  (1 <= r <= 57 /\ v < 2 ^ (57 - r) /\ (r < 57 -> 2 ^ (56 - r) <= v))%Z.
Definition is_sketch (offset : nat) (ks : list str) (regs : registers) : Prop :=
  length regs = 256%nat /\ forall j v, nth_error regs j = Some v ->
    (v = 0 /\ forall k, In k ks -> ~ selects offset k j) \/
    ((exists k, In k ks /\ selects offset k j /\ key_rank offset k (Z.of_N v)) /\
     forall k r, In k ks -> selects offset k j -> key_rank offset k r -> (r <= Z.of_N v)%Z).

Lemma rank_unique offset k r r' : key_rank offset k r -> key_rank offset k r' -> r = r'.
Proof.
  intros (A & C & D) (A' & C' & D'). destruct (Z.lt_trichotomy r r') as [H|[H|H]]; [|exact H|].
  - specialize (D ltac:(lia)). assert (P : (2 ^ (57 - r') <= 2 ^ (56 - r))%Z) by (apply Z.pow_le_mono_r; lia). lia.
  - specialize (D' ltac:(lia)). assert (P : (2 ^ (57 - r) <= 2 ^ (56 - r'))%Z) by (apply Z.pow_le_mono_r; lia). lia.
Qed.
Lemma window_parts offset k : (offset <= 24)%nat -> length k = 32%nat ->
  exists c, nth_error k offset = Some c /\ head_index (window offset k) = N.to_nat (val c) /\ tl (window offset k) = firstn 7 (skipn (S offset) k).
Proof.
  intros Ho L. assert (Es : skipn offset k = skipn offset k) by reflexivity. destruct (nth_error k offset) as [c|] eqn:E; [|apply nth_error_None in E; lia].
  exists c. split; [reflexivity|]. apply nth_error_split in E as (a & b & Ek & La). subst k.
  assert (S1 : skipn offset (a ++ c :: b) = c :: b) by (rewrite <- La, skipn_app, skipn_all, Nat.sub_diag; reflexivity).
  assert (S2 : skipn (S offset) (a ++ c :: b) = b).
  { rewrite <- La, skipn_app. rewrite skipn_all2 by lia. replace (S (length a) - length a)%nat with 1%nat by lia. reflexivity. }
  unfold window. rewrite S1, S2. split; reflexivity.
Qed.
Lemma window_rank offset k : (offset <= 24)%nat -> length k = 32%nat -> key_rank offset k (Z.of_N (rank (window offset k))).
Proof.
  intros Ho L. destruct (window_parts offset k Ho L) as (c & _ & _ & T). assert (R := rank_spec _ (window_length offset k Ho L)). unfold is_rank in R. rewrite T in R. exact R.
Qed.

Lemma merge_crash regs other : merge_registers regs other = Panic <-> (length regs < length other)%nat.
Proof.
  revert regs. induction other as [|v o IH]; intros [|r rs]; cbn [merge_registers length]; try (split; [discriminate|lia]); try (split; [lia|reflexivity]). specialize (IH rs).
  destruct (merge_registers rs o); cbn [obind]; split; try discriminate; try reflexivity; intro Q; try (assert (X : @Panic registers = Panic) by reflexivity; apply IH in X; lia); exfalso; assert (X : (length rs < length o)%nat) by lia; apply IH in X; discriminate.
Qed.
(** When the functions crash: offsets outside of 0..24, registers that are not 256, merging more registers than there are. *)
Theorem C34_crash_exactly regs other offset :
  (hll_new offset = Panic <-> (offset < 0 \/ 24 < offset)%Z) /\ (hll_with regs offset = Panic <-> (offset < 0 \/ 24 < offset)%Z \/ length regs <> 256%nat) /\
  (hll_with regs offset <> Panic -> hll_with regs offset = Ok regs) /\ (merge_registers regs other = Panic <-> (length regs < length other)%nat).
Proof.
  unfold hll_new, hll_with, valid_offset. assert (V : ((0 <=? offset)%Z && (offset <=? 24)%Z) = true <-> ~ (offset < 0 \/ 24 < offset)%Z) by (rewrite andb_true_iff, !Z.leb_le; lia).
  destruct ((0 <=? offset)%Z && (offset <=? 24)%Z); cbn [negb].
  - assert (NV : ~ (offset < 0 \/ 24 < offset)%Z) by (apply V; reflexivity). split; [split; [discriminate|contradiction]|]. destruct (Nat.eqb_spec (length regs) 256) as [E|E].
    + split; [split; [discriminate|intros [Q|Q]; contradiction]|]. split; [reflexivity|]. apply merge_crash.
    + split; [split; [right; exact E|reflexivity]|]. split; [congruence|]. apply merge_crash.
  - assert (NV : (offset < 0 \/ 24 < offset)%Z) by (destruct (Z_lt_ge_dec offset 0); [lia|]; destruct (Z_lt_ge_dec 24 offset); [lia|]; exfalso; assert (X : false = true) by (apply V; lia); discriminate).
    split; [split; auto|]. split; [split; auto|]. split; [congruence|]. apply merge_crash.
Qed.
Print Assumptions C34_crash_exactly.

(** However a sketch is built from keys - any order, any repetition, bytes or hex, any tree of merges - it is the sketch of its set of keys. *)
Theorem C34_build_is_sketch offset b : (offset <= 24)%nat -> Forall (fun k => length k = 32%nat) (keys b) ->
  exists regs, run offset b = Ok regs /\ is_sketch offset (keys b) regs.
Proof.
  intros Ho F. destruct (run_spec offset b Ho F) as (r & E & L & R). exists r. split; [exact E|]. split; [exact L|].
  rewrite Forall_forall in F. intros j v Hj. assert (J : (j < 256)%nat) by (rewrite <- L; apply nth_error_Some; congruence).
  assert (Ev : v = level (map (window offset) (keys b)) j) by (rewrite <- R by exact J; symmetry; apply nth_error_nth; exact Hj).
  assert (Sel : forall k, In k (keys b) -> (selects offset k j <-> head_index (window offset k) = j)).
  { intros k Hk. destruct (window_parts offset k Ho (F k Hk)) as (c & E1 & E2 & _). unfold selects. rewrite E1, E2. split; [intros (c' & H & <-); congruence|]. intro H. exists c. auto. }
  destruct (level_attained (map (window offset) (keys b)) j) as [Z|(x & Hx & H1 & H2)].
  - left. split; [congruence|]. intros k Hk S. apply Sel in S; [|exact Hk].
    assert (K := level_in (map (window offset) (keys b)) j _ (in_map _ _ _ Hk) S). rewrite Z in K. assert (R1 : 1 <= rank (window offset k)) by (unfold rank; lia). lia.
  - right. apply in_map_iff in Hx as (k & <- & Hk). split.
    + exists k. split; [exact Hk|]. split; [apply Sel; assumption|]. rewrite Ev, H2. apply window_rank; [exact Ho|apply F, Hk].
    + intros k' r' Hk' S' K'. apply Sel in S'; [|exact Hk']. rewrite (rank_unique offset k' r' _ K' (window_rank offset k' Ho (F k' Hk'))).
      rewrite Ev. assert (K := level_in (map (window offset) (keys b)) j _ (in_map _ _ _ Hk') S'). lia.
Qed.
Theorem C34_order_and_grouping_free offset a b : (offset <= 24)%nat -> Forall (fun k => length k = 32%nat) (keys a) -> Forall (fun k => length k = 32%nat) (keys b) ->
  (forall k, In k (keys a) <-> In k (keys b)) -> run offset a = run offset b.
Proof.
  intros Ho Fa Fb H. destruct (run_spec offset a Ho Fa) as (ra & Ea & La & Ra). destruct (run_spec offset b Ho Fb) as (rb & Eb & Lb & Rb). rewrite Ea, Eb. f_equal.
  apply regs_ext; [lia|]. intros j Hj. rewrite Ra, Rb by lia. apply N.le_antisymm; apply level_incl; intros x Hx; apply in_map_iff in Hx as (k & <- & Hk); apply in_map, H, Hk.
Qed.
(** Merging whole sketches, whatever they hold *)
Theorem C34_merge_laws a b c : length a = length b -> length b = length c ->
  merge_registers a b = merge_registers b a /\ merge_registers a a = Ok a /\
  obind (merge_registers a b) (fun r => merge_registers r c) = obind (merge_registers b c) (fun r => merge_registers a r) /\
  merge_registers a (repeat 0 (length a)) = Ok a.
Proof.
  intros L1 L2. assert (M : forall x y, length x = length y -> exists r, merge_registers x y = Ok r /\ length r = length x /\ forall j, reg r j = N.max (reg x j) (reg y j)) by (intros; apply merge_spec; lia).
  destruct (M a b L1) as (ab & Eab & Lab & Rab). destruct (M b a (eq_sym L1)) as (ba & Eba & Lba & Rba). destruct (M a a eq_refl) as (aa & Eaa & Laa & Raa).
  destruct (M b c L2) as (bc & Ebc & Lbc & Rbc). destruct (M ab c ltac:(lia)) as (x & Ex & Lx & Rx). destruct (M a bc ltac:(lia)) as (y & Ey & Ly & Ry).
  destruct (M a (repeat 0 (length a)) ltac:(rewrite repeat_length; reflexivity)) as (z & Ez & Lz & Rz).
  rewrite Eab, Eba, Ebc. cbn [obind]. rewrite Ex, Ey, Eaa, Ez. repeat split; f_equal; apply regs_ext; try lia; intros j _.
  - rewrite Rab, Rba. lia.
  - rewrite Raa. lia.
  - rewrite Rx, Rab, Ry, Rbc. lia.
  - rewrite Rz. unfold reg. rewrite nth_repeat. lia.
Qed.
Theorem C34_hex_and_bytes_agree offset regs key : add_hex offset regs (hex_encode key) = add_bytes offset regs key.
Proof. apply add_hex_bytes. Qed.
(** Registers received from elsewhere: too many of them crash the merge. *)
Theorem C34_long_registers_panic_refuted : exists other, forall regs, length regs = 256%nat -> merge_registers regs other = Panic.
Proof. exists (repeat 0 257). intros regs L. apply merge_long. rewrite repeat_length. lia. Qed.
Example C34_example :
  let k1 := repeat (byte_of 7) 32 in let k2 := repeat (byte_of 0) 31 ++ [byte_of 1] in
  run 24 (BMerge (BAdd (BAdd BNew k1) k2) (BAddHex BNew k1)) = run 24 (BMerge (BAddHex BNew k2) (BMerge (BAdd BNew k1) BNew)) /\
  match run 24 (BAdd (BAdd BNew k1) k2) with Ok r => (nth 0 r 0, nth 7 r 0, nth 1 r 0) = (56, 6, 0) | _ => False end.
Proof. vm_compute. split; reflexivity. Qed.
Print Assumptions C34_build_is_sketch.
Print Assumptions C34_order_and_grouping_free.
Print Assumptions C34_merge_laws.
Print Assumptions C34_hex_and_bytes_agree.
Print Assumptions C34_long_registers_panic_refuted.

(** * C35 *)
(** An accepted filter asks one kind for one value of one tag; its offset is read from the value's 33rd hex digit, lies in 8..23, and
    every event's entry for that value carries the same offset. *)
Theorem C35_offsets_agree f e o : (0 <= offset_for_filter f)%Z ->
  exists name value, f_tags f = [(name, Some [value])] /\ (8 <= offset_for_filter f <= 23)%Z /\
    (In (value, o) (pairs_for_event e) -> o = offset_for_filter f).
Proof.
  intros H. destruct (filter_offset_shape f H) as (name & kind & v & _ & T & _ & V & E). exists name, v. rewrite E. split; [exact T|]. split; [apply offset_of_range, V|].
  intro P. apply pairs_are_offsets in P as [_ ->]. reflexivity.
Qed.
(** The offset is eight more than the upper half of the seventeenth byte of the id or key asked for. *)
Theorem C35_offset_value b : length b = 32%nat -> let o := (Z.of_N (val (nth 16 b zero) / 16) + 8)%Z in
  (forall e o', In (hex_encode b, o') (pairs_for_event e) -> o' = o) /\ (forall f name, f_tags f = [(name, Some [hex_encode b])] -> (0 <= offset_for_filter f)%Z -> offset_for_filter f = o).
Proof.
  intros L o. assert (E : offset_of (hex_encode b) = o).
  { unfold offset_of, nibble. assert (N : nth_error (hex_encode b) 32 = nth_error (hex_encode (skipn 16 b)) 0). { rewrite <- hex_skip. change (16 * 2)%nat with 32%nat. assert (Q : forall n (x : str), nth_error x n = nth_error (skipn n x) 0) by (induction n as [|n IH]; intros [|c x]; try reflexivity; apply IH). apply Q. }
    rewrite N. subst o. do 17 (destruct b as [|? b]; [discriminate|]). cbn [skipn nth]. cbn [hex_encode flat_map app nth_error hex_byte]. destruct a15 as [[] [] [] [] [] [] [] []]; reflexivity. }
  split.
  - intros e o' H. apply pairs_are_offsets in H as [_ ->]. exact E.
  - intros f name T H. destruct (filter_offset_shape f H) as (name' & kind & v & _ & T' & _ & _ & EO). rewrite T in T'. assert (v = hex_encode b) as -> by congruence. rewrite EO. exact E.
Qed.
(** Exactly the filters of the NIP are served. *)
Definition served (f : nfilter) (kind : Z) (name v : str) : Prop :=
  f_ids f = None /\ f_authors f = None /\ f_since f = None /\ f_until f = None /\ f_search f = [] /\ f_kinds f = Some [kind] /\ f_tags f = [(name, Some [v])] /\
  (kind = 3%Z /\ name = B "p" \/ kind = 7%Z /\ name = B "e" \/ kind = 1111%Z /\ name = B "E") /\ length v = 64%nat /\ (forall c, In c v -> is_lower_hex_char c = true).
Theorem C35_served_filters f : (0 <= offset_for_filter f)%Z <-> exists kind name v, served f kind name v.
Proof.
  split.
  - intro H. destruct (filter_offset_shape f H) as (name & kind & v & NK & T & K & V & E). exists kind, name, v. unfold served. rewrite K, T.
    unfold valid_32byte_hex in V. apply andb_true_iff in V as [V _]. apply andb_true_iff in V as [V L]. apply Nat.eqb_eq in L. rewrite forallb_forall in V.
    unfold offset_for_filter in H. destruct (_ || _) eqn:G; [lia|]. rewrite !orb_false_iff in G. destruct G as [[[[[[G1 G2] G3] G4] _] G6] _].
    destruct (f_ids f); [discriminate|]. destruct (f_since f); [discriminate|]. destruct (f_until f); [discriminate|]. destruct (f_authors f); [discriminate|].
    apply negb_false_iff, seqb_eq in G6. split; [reflexivity|]. split; [reflexivity|]. split; [reflexivity|]. split; [reflexivity|]. split; [exact G6|]. split; [reflexivity|]. split; [reflexivity|]. split; [tauto|]. auto.
  - intros (kind & name & v & A1 & A2 & A3 & A4 & A5 & A6 & A7 & NK & L & V).
    assert (W : valid_32byte_hex v = true).
    { unfold valid_32byte_hex. assert (F : forallb is_lower_hex_char v = true) by (apply forallb_forall; exact V). rewrite F, L.
      destruct (hex_encode_decode v F) as (b & -> & _); [rewrite L; reflexivity|reflexivity]. }
    destruct (valid_hex_nibble v W) as (c & n & N1 & N2 & N3).
    unfold offset_for_filter. rewrite A1, A2, A3, A4, A5, A6, A7.
    destruct NK as [[-> ->]|[[-> ->]|[-> ->]]]; cbn [oslice length Nat.eqb negb orb seqb assoc B list_ascii_of_string Ascii.eqb Bool.eqb andb Z.eqb Pos.eqb]; unfold nibble; rewrite N1, N2, W; cbn [andb]; lia.
Qed.
Print Assumptions C35_served_filters.
(** Everything an event yields has an offset in range, so that adding any 32-byte author key at it cannot crash. *)
Theorem C35_offsets_usable e v o regs author : In (v, o) (pairs_for_event e) -> length regs = 256%nat -> length author = 32%nat ->
  (8 <= o <= 23)%Z /\ exists r, hll_new o = Ok (repeat 0 256) /\ add_bytes (Z.to_nat o) regs author = Ok r /\ add_hex (Z.to_nat o) regs (hex_encode author) = Ok r.
Proof.
  intros H Lr La. apply pairs_are_offsets in H as [V ->]. assert (R := offset_of_range v V). split; [exact R|].
  set (n := Z.to_nat (offset_of v)). assert (Hn : (n <= 24)%nat) by lia.
  destruct (put_spec regs (window n author) Lr (window_length n author Hn La)) as (r & E & _). exists r.
  assert (A : add_bytes n regs author = Ok r) by (unfold add_bytes; destruct (Nat.ltb_spec (length author) (n + 8)); [lia|exact E]).
  split; [|split; [exact A|rewrite add_hex_bytes; exact A]].
  unfold hll_new, valid_offset. destruct (Z.leb_spec 0 (offset_of v)); [|lia]. destruct (Z.leb_spec (offset_of v) 24); [|lia]. reflexivity.
Qed.
(** Follower counts: every event the filter matches is counted for the filter's value. *)
Theorem C35_followers_all_counted f e v : filter_matches f (Some e) = true -> (0 <= offset_for_filter f)%Z -> f_tags f = [(B "p", Some [v])] ->
  In (v, offset_for_filter f) (pairs_for_event e).
Proof.
  intros M H T. destruct (filter_offset_shape f H) as (name & kind & w & NK & T' & K & V & E). rewrite T in T'. injection T' as <- <-.
  assert (Hk : kind = 3%Z). { destruct NK as [[_ ->]|[[X _]|[X _]]]; [reflexivity|discriminate|discriminate]. }
  apply filter_matches_spec in M as ((M1 & M2 & M3 & M4) & _). rewrite K in M2. specialize (M2 _ eq_refl). destruct M2 as [M2|[]]. rewrite T in M4.
  destruct (M4 (B "p") [v] (or_introl eq_refl)) as (t & w & rest & Ht & Et & Hw). destruct Hw as [<-|[]].
  unfold pairs_for_event. rewrite <- M2, Hk. cbn [Z.eqb]. apply in_flat_map. exists t. split; [exact Ht|]. rewrite Et. rewrite seqb_refl, V. cbn [andb]. left. rewrite E. reflexivity.
Qed.
(** Reactions and comments: counted when the value is in the last e tag, or the first E tag. *)
Theorem C35_others_counted_partial f e v : filter_matches f (Some e) = true -> (0 <= offset_for_filter f)%Z ->
  (f_tags f = [(B "e", Some [v])] -> (exists k rest, find_last (ev_tags e) (B "e") = Some (k :: v :: rest)) -> In (v, offset_for_filter f) (pairs_for_event e)) /\
  (f_tags f = [(B "E", Some [v])] -> (exists k rest, find_tag (ev_tags e) (B "E") = Some (k :: v :: rest)) -> In (v, offset_for_filter f) (pairs_for_event e)).
Proof.
  intros M H. destruct (filter_offset_shape f H) as (name & kind & w & NK & T' & K & V & E).
  apply filter_matches_spec in M as ((M1 & M2 & M3 & M4) & _). rewrite K in M2. specialize (M2 _ eq_refl). destruct M2 as [M2|[]].
  split; intros T (k & rest & F); rewrite T in T'; injection T' as <- <-; unfold pairs_for_event; rewrite <- M2.
  - destruct NK as [[X _]|[[_ ->]|[X _]]]; try discriminate. cbn [Z.eqb Pos.eqb]. rewrite F, V, E. left. reflexivity.
  - destruct NK as [[X _]|[[X _]|[_ ->]]]; try discriminate. cbn [Z.eqb Pos.eqb]. rewrite F, V, E. left. reflexivity.
Qed.
(** A reaction to two events is matched by the filter for the first of them but never counted for it. *)
Definition id_a : str := repeat "a"%char 64.
Definition id_b : str := repeat "b"%char 64.
Theorem C35_matched_not_counted_refuted : exists f e, filter_matches f (Some e) = true /\ (0 <= offset_for_filter f)%Z /\
  forall v o, f_tags f = [(B "e", Some [v])] -> ~ In (v, o) (pairs_for_event e).
Proof.
  exists (mkFilter None (Some [7%Z]) None [(B "e", Some [id_a])] None None 0 [] false), (mkEvent [] [] 0 7 [[B "e"; id_a]; [B "e"; id_b]] [] []).
  split; [vm_compute; reflexivity|]. split; [vm_compute; discriminate|]. intros v o E. injection E as <-. intro H.
  assert (P : pairs_for_event (mkEvent [] [] 0 7 [[B "e"; id_a]; [B "e"; id_b]] [] []) = [(id_b, 19%Z)]) by (vm_compute; reflexivity). rewrite P in H.
  destruct H as [H|[]]. discriminate.
Qed.
Example C35_example :
  let f := mkFilter None (Some [3%Z]) None [(B "p", Some [id_a])] None None 0 [] false in
  let e := mkEvent [] [] 0 3 [[B "p"; id_b]; [B "p"; id_a; B "wss://x"]] [] [] in
  filter_matches f (Some e) = true /\ offset_for_filter f = 18%Z /\ pairs_for_event e = [(id_b, 19%Z); (id_a, 18%Z)].
Proof. vm_compute. repeat split. Qed.
Print Assumptions C35_offsets_agree.
Print Assumptions C35_offsets_usable.
Print Assumptions C35_followers_all_counted.
Print Assumptions C35_others_counted_partial.
Print Assumptions C35_matched_not_counted_refuted.

Print Assumptions C35_offset_value.
