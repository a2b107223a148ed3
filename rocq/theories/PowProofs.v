(** Lemmas for C33. *)
From Verif Require Import Base EventModel TagsModel TagsProofs PowModel.
Local Open Scope Z_scope.

(** The number a byte string writes, most significant byte first *)
Fixpoint value (s : str) : Z := match s with [] => 0 | c :: r => Z.of_N (val c) * 2 ^ (8 * Z.of_nat (length r)) + value r end.
Lemma value_bounds s : 0 <= value s < 2 ^ (8 * Z.of_nat (length s)).
Proof.
  induction s as [|c r IH]; cbn [value length]; [cbn; lia|]. assert (V := val_lt c).
  replace (8 * Z.of_nat (S (length r))) with (8 + 8 * Z.of_nat (length r)) by lia. rewrite Z.pow_add_r by lia. change (2 ^ 8) with 256. nia.
Qed.
Lemma size_byte c : val c <> 0%N -> 1 <= Z.of_N (N.size (val c)) <= 8 /\ 2 ^ (Z.of_N (N.size (val c)) - 1) <= Z.of_N (val c) < 2 ^ Z.of_N (N.size (val c)).
Proof.
  intro H. set (p := fun c => N.eqb (val c) 0 || ((1 <=? Z.of_N (N.size (val c))) && (Z.of_N (N.size (val c)) <=? 8) && (2 ^ (Z.of_N (N.size (val c)) - 1) <=? Z.of_N (val c)) && (Z.of_N (val c) <? 2 ^ Z.of_N (N.size (val c))))).
  assert (A : p c = true) by (apply bytes_forallb; vm_compute; reflexivity). unfold p in A. destruct (N.eqb_spec (val c) 0); [congruence|]. cbn [orb] in A. rewrite !andb_true_iff, !Z.leb_le, Z.ltb_lt in A. lia.
Qed.
Lemma difficulty_bytes_spec s : let n := 8 * Z.of_nat (length s) in let d := difficulty_bytes s in
  0 <= d <= n /\ value s < 2 ^ (n - d) /\ (d < n -> 2 ^ (n - d - 1) <= value s).
Proof.
  induction s as [|c r IH]; cbn [difficulty_bytes length value]; [cbn; lia|]. cbv zeta in IH.
  destruct (N.eqb_spec (val c) 0) as [E|E].
  - rewrite E. replace (8 * Z.of_nat (S (length r)) - (8 + difficulty_bytes r)) with (8 * Z.of_nat (length r) - difficulty_bytes r) by lia.
    replace (Z.of_N 0 * 2 ^ (8 * Z.of_nat (length r)) + value r) with (value r) by lia. destruct IH as (A & B1 & C). split; [lia|]. split; [exact B1|]. intro H. apply C. lia.
  - destruct (size_byte c E) as (S1 & S2). unfold clz8. assert (VB := value_bounds r).
    set (s := Z.of_N (N.size (val c))) in *. set (n := 8 * Z.of_nat (length r)) in *.
    replace (8 * Z.of_nat (S (length r)) - (8 - s)) with (s + n) by lia. assert (N0 : 0 <= n) by lia. split; [lia|]. split.
    + rewrite Z.pow_add_r by lia. nia.
    + intros _. replace (s + n - 1) with ((s - 1) + n) by lia. rewrite Z.pow_add_r by lia. nia.
Qed.

(** Hex digits *)
Lemma zero_pair a b x y : hex_val a = Some x -> hex_val b = Some y -> seqb [a; b] (B "00") = N.eqb (val (byte_of (16 * x + y))) 0.
Proof.
  intros A C.
  set (p := fun c : ascii => match hex_val c with Some v => N.ltb v 16 && Bool.eqb (N.eqb v 0) (ceqb c "0") | None => true end).
  assert (P : forall c, p c = true) by (apply bytes_forallb; vm_compute; reflexivity).
  assert (PA := P a). assert (PC := P b). unfold p in PA, PC. rewrite A in PA. rewrite C in PC. apply andb_true_iff in PA as [PA1 PA2], PC as [PC1 PC2].
  apply N.ltb_lt in PA1, PC1. apply eqb_prop in PA2, PC2. rewrite val_byte_of by lia.
  cbn [seqb B list_ascii_of_string]. change (Ascii.eqb a "0") with (ceqb a "0"). change (Ascii.eqb b "0") with (ceqb b "0"). rewrite <- PA2, <- PC2.
  destruct (N.eqb_spec x 0), (N.eqb_spec y 0), (N.eqb_spec (16 * x + y) 0); try reflexivity; lia.
Qed.
Lemma hex_decode_cons a b r bs : hex_decode (a :: b :: r) = Some bs -> exists x y rest, hex_val a = Some x /\ hex_val b = Some y /\ hex_decode r = Some rest /\ bs = byte_of (16 * x + y) :: rest.
Proof.
  cbn [hex_decode]. destruct (hex_val a) as [x|]; [|discriminate]. destruct (hex_val b) as [y|]; [|discriminate]. destruct (hex_decode r) as [t|]; [|discriminate].
  intro E. injection E as <-. exists x, y, t. auto.
Qed.
Lemma difficulty_loop_spec n : forall z s b t, hex_decode s = Some b -> length b = n -> difficulty_loop n z (s ++ t) = Ok (z + difficulty_bytes b).
Proof.
  induction n as [|n IH]; intros z s b t D L.
  - destruct b; [|discriminate]. cbn [difficulty_loop difficulty_bytes]. rewrite Z.add_0_r. reflexivity.
  - destruct s as [|c1 [|c2 s]]; [injection D as <-; discriminate|discriminate|].
    apply hex_decode_cons in D as (x & y & rest & A & C & D & ->). cbn [app difficulty_loop difficulty_bytes].
    rewrite (zero_pair c1 c2 x y A C). destruct (N.eqb (val (byte_of (16 * x + y))) 0).
    + rewrite (IH _ s rest t D) by (cbn [length] in L; lia). f_equal. lia.
    + cbn [hex_decode]. rewrite A, C. reflexivity.
Qed.
Lemma hex_decode_len s : forall b, hex_decode s = Some b -> length s = (2 * length b)%nat.
Proof.
  induction s as [s IH] using (induction_ltof1 _ (@length ascii)). unfold ltof in IH. destruct s as [|a [|b s]]; intros bs D; [injection D as <-; reflexivity|discriminate|].
  apply hex_decode_cons in D as (x & y & rest & _ & _ & D & ->). cbn [length]. rewrite (IH s) with (b := rest); [lia|cbn [length]; lia|exact D].
Qed.
Lemma difficulty_no_panic n : forall z s, (2 * n <= length s)%nat -> difficulty_loop n z s <> Panic.
Proof.
  induction n as [|n IH]; intros z s H; cbn [difficulty_loop]; [discriminate|]. destruct s as [|a [|b s]]; cbn [length] in H; [lia|lia|].
  destruct (seqb [a; b] (B "00")); [apply IH; lia|]. destruct (hex_decode [a; b]) as [[|x l]|]; discriminate.
Qed.

(** ** DoWork *)
Lemma nth_set_same {A} (l : list A) i x : (i < length l)%nat -> nth_error (set_nth i x l) i = Some x.
Proof. revert i. induction l as [|y l IH]; intros [|i] H; cbn [set_nth nth_error length] in *; try lia; [reflexivity|]. apply IH. lia. Qed.
Lemma nth_set_other {A} (l : list A) i j x : i <> j -> nth_error (set_nth i x l) j = nth_error l j.
Proof.
  revert i j. induction l as [|y l IH]; intros [|i] [|j] H; cbn [set_nth nth_error]; try reflexivity; try congruence. apply IH. congruence.
Qed.
Lemma set_nth_length {A} (l : list A) : forall i x, length (set_nth i x l) = length l.
Proof. induction l as [|y l IH]; intros [|i] x; cbn [set_nth length]; try reflexivity. rewrite IH. reflexivity. Qed.
Lemma nth_some_lt {A} (l : list A) i x : nth_error l i = Some x -> (i < length l)%nat.
Proof. intro H. apply nth_error_Some. congruence. Qed.

Section Work.
  Variable sha256 : str -> str.
  Variable ev : event.
  Variable target : Z.
  Variable threads : nat.
  Notation good := (good sha256 ev target threads).

  Definition first_good (i k : nat) : Prop := good i k = true /\ forall j, (j < k)%nat -> good i j = false.
  Definition worker_ok (i : nat) (w : worker) : Prop :=
    match w with Trying k => forall j, (j < k)%nat -> good i j = false | Offering k => first_good i k | Stopped => True end.
  Definition answer_ok (s : pow) : Prop :=
    match p_answer s with
    | None => ev_pubkey ev <> []
    | Some (Found t) => p_cancelled s = true /\ ev_pubkey ev <> [] /\ exists i k, (i < threads)%nat /\ t = work_tag target threads i k /\ first_good i k
    | Some Timeout => p_cancelled s = true /\ ev_pubkey ev <> []
    | Some NoPubKey => ev_pubkey ev = [] /\ p_workers s = []
    end.
  Definition pow_inv (s : pow) : Prop :=
    (length (p_workers s) <= threads)%nat /\ (forall i w, nth_error (p_workers s) i = Some w -> worker_ok i w) /\ answer_ok s.

  Lemma nth_error_rep {A} (x : A) n i w : nth_error (repeat x n) i = Some w -> w = x.
  Proof. revert i. induction n as [|n IH]; intros [|i] H; cbn in H; try discriminate; [congruence|]. eapply IH, H. Qed.

  Lemma set_ok ws i w : (forall j x, nth_error ws j = Some x -> worker_ok j x) -> (i < length ws)%nat -> worker_ok i w ->
    forall j x, nth_error (set_nth i w ws) j = Some x -> worker_ok j x.
  Proof.
    intros H Hi Hw j x E. destruct (Nat.eq_dec i j) as [<-|NE].
    - rewrite nth_set_same in E by exact Hi. injection E as <-. exact Hw.
    - rewrite nth_set_other in E by exact NE. apply H, E.
  Qed.

  Lemma pow_invariant s : pow_reach sha256 ev target threads s -> pow_inv s.
  Proof.
    induction 1 as [|s s' _ IH St].
    - unfold pow_init. destruct (ev_pubkey ev) as [|c r] eqn:E; cbn [length Nat.eqb].
      + split; [cbn; lia|]. split; [intros [|i] w H; discriminate|]. split; [exact E|reflexivity].
      + split; [cbn [p_workers]; rewrite repeat_length; lia|]. split; [|cbn; rewrite E; discriminate].
        intros i w H. apply nth_error_rep in H. subst w. intros j Hj. lia.
    - destruct IH as (L & W & A). destruct St as [ws c a i k N G|ws c a i k N G|ws a i k N|ws c i k N|ws a i k N|ws|ws c a]; cbn [p_workers p_cancelled p_answer] in *;
        unfold pow_inv; cbn [p_workers]; rewrite ?set_nth_length.
      + split; [exact L|]. split.
        * apply set_ok; [exact W|eapply nth_some_lt, N|]. intros j Hj. destruct (Nat.eq_dec j k) as [->|NE]; [exact G|]. apply (W i _ N). lia.
        * unfold answer_ok in *. cbn [p_answer p_cancelled p_workers] in *. destruct a as [[t| |]|]; try exact A. destruct A as [A1 A2]. subst ws. destruct i; discriminate.
      + split; [exact L|]. split.
        * apply set_ok; [exact W|eapply nth_some_lt, N|]. split; [exact G|exact (W i _ N)].
        * unfold answer_ok in *. cbn [p_answer p_cancelled p_workers] in *. destruct a as [[t| |]|]; try exact A. destruct A as [A1 A2]. subst ws. destruct i; discriminate.
      + split; [exact L|]. split.
        * apply set_ok; [exact W|eapply nth_some_lt, N|exact I].
        * unfold answer_ok in *. cbn [p_answer p_cancelled p_workers] in *. destruct a as [[t| |]|]; try exact A. destruct A as [A1 A2]. subst ws. destruct i; discriminate.
      + split; [exact L|]. split.
        * apply set_ok; [exact W|eapply nth_some_lt, N|exact I].
        * unfold answer_ok in *. cbn [p_answer p_cancelled] in *. split; [reflexivity|]. split; [exact A|]. exists i, k. split; [assert (X := nth_some_lt _ _ _ N); lia|]. split; [reflexivity|]. exact (W i _ N).
      + split; [exact L|]. split.
        * apply set_ok; [exact W|eapply nth_some_lt, N|exact I].
        * unfold answer_ok in *. cbn [p_answer p_cancelled p_workers] in *. destruct a as [[t| |]|]; try exact A. destruct A as [A1 A2]. subst ws. destruct i; discriminate.
      + split; [exact L|]. split; [exact W|]. unfold answer_ok in *. cbn in *. auto.
      + split; [exact L|]. split; [exact W|]. unfold answer_ok in *. cbn [p_answer p_cancelled p_workers] in *. destruct a as [[t| |]|]; try exact A; [|destruct A; auto].
        destruct A as (_ & A1 & A2). auto.
  Qed.

  (** An answered or cancelled run lets every worker stop. *)
  Inductive steps : pow -> pow -> Prop :=
  | Steps0 s : steps s s
  | StepsS s s' s'' : pow_step sha256 ev target threads s s' -> steps s' s'' -> steps s s''.
  Lemma steps_trans a b c : steps a b -> steps b c -> steps a c.
  Proof. induction 1; intro K; [exact K|]. eapply StepsS; eauto. Qed.
  Lemma all_stop ws a : forall n, (n <= length ws)%nat -> (forall i, (n <= i)%nat -> (i < length ws)%nat -> nth_error ws i = Some Stopped) ->
    exists ws', steps (mkPow ws true a) (mkPow ws' true a) /\ length ws' = length ws /\ forall i w, nth_error ws' i = Some w -> w = Stopped.
  Proof.
    intro n. revert ws. induction n as [|n IH]; intros ws L H.
    - exists ws. split; [apply Steps0|]. split; [reflexivity|]. intros i w E. assert (X := nth_some_lt _ _ _ E). rewrite H in E by lia. congruence.
    - assert (K : forall ws1, ws1 = set_nth n Stopped ws -> exists ws', steps (mkPow ws1 true a) (mkPow ws' true a) /\ length ws' = length ws /\ forall i w, nth_error ws' i = Some w -> w = Stopped).
      { intros ws1 ->. rewrite <- (set_nth_length ws n Stopped). apply IH; rewrite set_nth_length; [lia|]. intros i H1 H2. destruct (Nat.eq_dec n i) as [<-|NE]; [apply nth_set_same; lia|]. rewrite nth_set_other by exact NE. apply H; lia. }
      destruct (nth_error ws n) as [[k|k|]|] eqn:E.
      + destruct (K _ eq_refl) as (ws' & S1 & S2). exists ws'. split; [|exact S2]. eapply StepsS; [eapply StepQuit, E|exact S1].
      + destruct (K _ eq_refl) as (ws' & S1 & S2). exists ws'. split; [|exact S2]. eapply StepsS; [eapply StepDrop, E|exact S1].
      + apply IH; [lia|]. intros i H1 H2. destruct (Nat.eq_dec n i) as [<-|NE]; [exact E|]. apply H; lia.
      + exfalso. apply nth_error_None in E. lia.
  Qed.

  (** From the start, the first good try of any worker can be the answer. *)
  Lemma set_set {A} (l : list A) i x y : set_nth i x (set_nth i y l) = set_nth i x l.
  Proof. revert i. induction l as [|z l IH]; intros [|i]; cbn [set_nth]; try reflexivity. rewrite IH. reflexivity. Qed.
  Lemma run_worker ws i : (i < length ws)%nat -> nth_error ws i = Some (Trying 0) -> forall k, (forall j, (j < k)%nat -> good i j = false) ->
    steps (mkPow ws false None) (mkPow (set_nth i (Trying k) ws) false None).
  Proof.
    intros L E k. induction k as [|k IH]; intro H.
    - replace (set_nth i (Trying 0) ws) with ws; [apply Steps0|]. clear - E. revert i E. induction ws as [|w ws IH]; intros [|i] E; cbn in *; try discriminate; [congruence|]. rewrite <- IH by exact E. reflexivity.
    - eapply steps_trans; [apply IH; intros; apply H; lia|]. rewrite <- (set_set ws i (Trying (S k)) (Trying k)).
      eapply StepsS; [apply StepTry with (k := k); [apply nth_set_same, L|apply H; lia]|apply Steps0].
  Qed.
End Work.

Lemma atoi_dec z : min_int64 <= z <= max_int64 -> atoi_value (dec_Z z) = z.
Proof.
  intro H. assert (P : forall n, Z.of_N n = z -> atoi_value (dec_N n) = z).
  { intros n E. assert (Q := parse_digits_dec_N n). destruct (dec_N_head n) as (c & r & E2 & D). rewrite E2 in *. unfold atoi_value.
    destruct (ceqb c "-") eqn:E3; [apply Ascii.eqb_eq in E3; subst c; discriminate|]. destruct (ceqb c "+") eqn:E4; [apply Ascii.eqb_eq in E4; subst c; discriminate|].
    rewrite Q. lia. }
  unfold dec_Z. destruct z as [|p|p].
  - apply P. reflexivity.
  - apply P. cbn. reflexivity.
  - unfold atoi_value. change (ceqb "-" "-") with true. cbv iota beta zeta. rewrite parse_digits_dec_N. cbn [Z.of_N Z.opp]. lia.
Qed.
