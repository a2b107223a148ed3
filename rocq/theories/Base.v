(** Common vocabulary: byte strings, outcomes, hexadecimal and decimal text. *)
From Coq Require Export Ascii String.
From Coq Require Export List Arith ZArith NArith Lia Bool Permutation Sorted.
From Coq Require DecimalN DecimalPos.
From Coq Require Decimal.
From Coq Require Export ZifyBool ZifyNat ZifyN.
Export ListNotations.
Ltac Zify.zify_post_hook ::= Z.div_mod_to_equations.

(** A Go string or []byte: any sequence of the 256 byte values. *)
Definition str := list ascii.

(** Byte string literal. *)
Definition B (s : string) : str := list_ascii_of_string s.

Definition byte_of (n : N) : ascii := ascii_of_N n.
Definition val (c : ascii) : N := N_of_ascii c.

(** Result of a Go function that may return an error or panic. *)
Inductive outcome (A : Type) : Type :=
| Ok (a : A)
| Err
| Panic.
Arguments Ok {A} a.
Arguments Err {A}.
Arguments Panic {A}.

Definition obind {A C} (x : outcome A) (f : A -> outcome C) : outcome C :=
  match x with Ok a => f a | Err => Err | Panic => Panic end.

(** Equality tests. *)
Definition ceqb (a b : ascii) : bool := Ascii.eqb a b.

Fixpoint seqb (a b : str) : bool :=
  match a, b with
  | [], [] => true
  | x :: a', y :: b' => Ascii.eqb x y && seqb a' b'
  | _, _ => false
  end.

Definition smem (x : str) (l : list str) : bool := existsb (seqb x) l.
Definition zmem (x : Z) (l : list Z) : bool := existsb (Z.eqb x) l.

(** strings.HasPrefix *)
Fixpoint has_prefix (s p : str) {struct p} : bool :=
  match p, s with
  | [], _ => true
  | c :: p', d :: s' => Ascii.eqb c d && has_prefix s' p'
  | _ :: _, [] => false
  end.

(** strings.Index: position of the first occurrence. *)
Fixpoint index (s p : str) : option nat :=
  if has_prefix s p then Some 0
  else match s with
       | [] => None
       | _ :: s' => option_map S (index s' p)
       end.

(** Lexicographic byte order, as strings.Compare and bytes.Compare. *)
Fixpoint scmp (a b : str) : comparison :=
  match a, b with
  | [], [] => Eq
  | [], _ :: _ => Lt
  | _ :: _, [] => Gt
  | x :: a', y :: b' =>
      match N.compare (val x) (val y) with Eq => scmp a' b' | c => c end
  end.

(** Hexadecimal text (encoding/hex). *)
Definition hex_digit (n : N) : ascii :=
  if (n <? 10)%N then byte_of (48 + n) else byte_of (87 + n).

Definition hex_byte (c : ascii) : str :=
  [hex_digit (val c / 16); hex_digit (val c mod 16)].

Definition hex_encode (s : str) : str := flat_map hex_byte s.

(** encoding/hex accepts both cases. *)
Definition hex_val (c : ascii) : option N :=
  let n := val c in
  if ((48 <=? n) && (n <=? 57))%N then Some (n - 48)%N
  else if ((97 <=? n) && (n <=? 102))%N then Some (n - 87)%N
  else if ((65 <=? n) && (n <=? 70))%N then Some (n - 55)%N
  else None.

(** hex.DecodeString; None is its error. *)
Fixpoint hex_decode (s : str) : option str :=
  match s with
  | [] => Some []
  | a :: b :: s' =>
      match hex_val a, hex_val b, hex_decode s' with
      | Some x, Some y, Some r => Some (byte_of (16 * x + y) :: r)
      | _, _, _ => None
      end
  | _ => None
  end.

Definition is_lower_hex_char (c : ascii) : bool :=
  let n := val c in ((48 <=? n) && (n <=? 57) || (97 <=? n) && (n <=? 102))%N.

(** Decimal text. *)
Fixpoint uint_str (u : Decimal.uint) : str :=
  match u with
  | Decimal.Nil => []
  | Decimal.D0 u => "0"%char :: uint_str u | Decimal.D1 u => "1"%char :: uint_str u
  | Decimal.D2 u => "2"%char :: uint_str u | Decimal.D3 u => "3"%char :: uint_str u
  | Decimal.D4 u => "4"%char :: uint_str u | Decimal.D5 u => "5"%char :: uint_str u
  | Decimal.D6 u => "6"%char :: uint_str u | Decimal.D7 u => "7"%char :: uint_str u
  | Decimal.D8 u => "8"%char :: uint_str u | Decimal.D9 u => "9"%char :: uint_str u
  end.

(** strconv.FormatUint(n, 10) *)
Definition dec_N (n : N) : str := uint_str (N.to_uint n).

(** strconv.FormatInt(z, 10), strconv.Itoa *)
Definition dec_Z (z : Z) : str :=
  match z with
  | Zneg p => "-"%char :: dec_N (Npos p)
  | _ => dec_N (Z.to_N z)
  end.

Definition is_digit (c : ascii) : bool :=
  ((48 <=? val c) && (val c <=? 57))%N.

Definition dig_cons (c : ascii) (u : Decimal.uint) : Decimal.uint :=
  match (val c - 48)%N with
  | 0 => Decimal.D0 u | 1 => Decimal.D1 u | 2 => Decimal.D2 u | 3 => Decimal.D3 u | 4 => Decimal.D4 u
  | 5 => Decimal.D5 u | 6 => Decimal.D6 u | 7 => Decimal.D7 u | 8 => Decimal.D8 u | _ => Decimal.D9 u
  end%N.

Fixpoint str_uint (s : str) : Decimal.uint :=
  match s with [] => Decimal.Nil | c :: s' => dig_cons c (str_uint s') end.

(** Value of a non-empty string of digits. *)
Definition parse_digits (s : str) : option N :=
  match s with
  | [] => None
  | _ => if forallb is_digit s then Some (N.of_uint (str_uint s)) else None
  end.

Definition max_int64 : Z := 9223372036854775807.
Definition min_int64 : Z := -9223372036854775808.
Definition max_uint64 : Z := 18446744073709551615.
Definition two64 : Z := 18446744073709551616.

(** strconv.ParseInt(s, 10, 64): None is any error (syntax or range). *)
Definition parse_int (s : str) : option Z :=
  let chk (neg : bool) (o : option N) :=
    match o with
    | None => None
    | Some n => let z := if neg then (- Z.of_N n)%Z else Z.of_N n in
                if ((min_int64 <=? z) && (z <=? max_int64))%Z then Some z else None
    end in
  match s with
  | "-"%char :: r => chk true (parse_digits r)
  | "+"%char :: r => chk false (parse_digits r)
  | _ => chk false (parse_digits s)
  end.

(** strconv.ParseUint(s, 10, 64) *)
Definition parse_uint (s : str) : option Z :=
  match parse_digits s with
  | Some n => if (Z.of_N n <=? max_uint64)%Z then Some (Z.of_N n) else None
  | None => None
  end.

(** ------------------------------------------------------------------ *)
(** Lemmas *)

Lemma val_inj a b : val a = val b -> a = b.
Proof.
  unfold val; intro H.
  rewrite <- (ascii_N_embedding a), <- (ascii_N_embedding b), H; reflexivity.
Qed.

Lemma val_lt c : (val c < 256)%N.
Proof. unfold val; apply N_ascii_bounded. Qed.

Lemma val_byte_of n : (n < 256)%N -> val (byte_of n) = n.
Proof. intro H; unfold val, byte_of; apply N_ascii_embedding; exact H. Qed.

Lemma byte_of_val c : byte_of (val c) = c.
Proof. unfold val, byte_of; apply ascii_N_embedding. Qed.

Lemma seqb_eq a b : seqb a b = true <-> a = b.
Proof.
  revert b; induction a as [|x a IH]; intros [|y b]; cbn [seqb]; split; intro H;
    try discriminate; try reflexivity.
  - apply andb_true_iff in H as [H1 H2]. apply Ascii.eqb_eq in H1. apply IH in H2. congruence.
  - injection H as -> ->. apply andb_true_iff; split; [apply Ascii.eqb_refl|apply IH; reflexivity].
Qed.

Lemma seqb_refl a : seqb a a = true.
Proof. apply seqb_eq; reflexivity. Qed.

Lemma seqb_neq a b : seqb a b = false <-> a <> b.
Proof.
  split; intro H.
  - intro E; apply seqb_eq in E; congruence.
  - destruct (seqb a b) eqn:E; [apply seqb_eq in E; contradiction|reflexivity].
Qed.

Lemma seqb_spec a b : reflect (a = b) (seqb a b).
Proof. destruct (seqb a b) eqn:E; constructor; [apply seqb_eq|apply seqb_neq]; exact E. Qed.

Lemma seqb_sym a b : seqb a b = seqb b a.
Proof. destruct (seqb_spec a b), (seqb_spec b a); congruence. Qed.

Lemma str_eq_dec (a b : str) : {a = b} + {a <> b}.
Proof. destruct (seqb a b) eqn:E; [left; apply seqb_eq|right; apply seqb_neq]; exact E. Qed.

Lemma smem_In x l : smem x l = true <-> In x l.
Proof.
  unfold smem; rewrite existsb_exists; split.
  - intros (y & Hy & E). apply seqb_eq in E; congruence.
  - intro H; exists x; split; [exact H|apply seqb_refl].
Qed.

Lemma zmem_In x l : zmem x l = true <-> In x l.
Proof.
  unfold zmem; rewrite existsb_exists; split.
  - intros (y & Hy & E). apply Z.eqb_eq in E; congruence.
  - intro H; exists x; split; [exact H|apply Z.eqb_refl].
Qed.

Lemma has_prefix_spec s p : has_prefix s p = true <-> exists t, s = p ++ t.
Proof.
  revert s; induction p as [|c p IH]; intro s; cbn [has_prefix].
  - destruct s as [|c s]; cbn [has_prefix]; split; intros _; [exists []|reflexivity|exists (c :: s)|reflexivity]; reflexivity.
  - destruct s as [|d s].
    + split; [discriminate|intros (t & H); discriminate].
    + cbn [has_prefix]; rewrite andb_true_iff, IH, Ascii.eqb_eq; split.
      * intros [-> (t & ->)]; exists t; reflexivity.
      * intros (t & H); injection H as -> ->; eauto.
Qed.

Lemma has_prefix_app p t : has_prefix (p ++ t) p = true.
Proof. apply has_prefix_spec; eauto. Qed.

(** [scmp] is a total order. *)
Lemma scmp_refl a : scmp a a = Eq.
Proof. induction a as [|x a IH]; cbn [scmp]; [reflexivity|rewrite N.compare_refl; exact IH]. Qed.

Lemma scmp_eq a b : scmp a b = Eq <-> a = b.
Proof.
  split; [|intros ->; apply scmp_refl].
  revert b; induction a as [|x a IH]; intros [|y b]; cbn [scmp]; try discriminate; [reflexivity|].
  destruct (N.compare (val x) (val y)) eqn:E; try discriminate.
  intro H. apply N.compare_eq in E. apply val_inj in E. apply IH in H. congruence.
Qed.

Lemma scmp_antisym a b : scmp b a = CompOpp (scmp a b).
Proof.
  revert b; induction a as [|x a IH]; intros [|y b]; cbn [scmp CompOpp]; try reflexivity.
  rewrite (N.compare_antisym (val x) (val y)).
  destruct (N.compare (val x) (val y)); cbn [CompOpp]; auto.
Qed.

Lemma scmp_lt_trans a b c : scmp a b = Lt -> scmp b c = Lt -> scmp a c = Lt.
Proof.
  revert b c; induction a as [|x a IH]; intros [|y b] [|z c]; cbn [scmp]; try discriminate; auto.
  destruct (N.compare_spec (val x) (val y)) as [E1|E1|E1];
  destruct (N.compare_spec (val y) (val z)) as [E2|E2|E2];
  destruct (N.compare_spec (val x) (val z)) as [E3|E3|E3]; intros H1 H2;
    try discriminate; try (exfalso; lia); try reflexivity.
  eapply IH; eassumption.
Qed.

(** Hex digits. *)
Lemma hex_val_digit n : (n < 16)%N -> hex_val (hex_digit n) = Some n.
Proof.
  intro H. assert (In n (map N.of_nat (seq 0 16))).
  { apply in_map_iff. exists (N.to_nat n). split; [lia|]. apply in_seq. lia. }
  cbn in H0. repeat (destruct H0 as [<-|H0]; [reflexivity|]). contradiction.
Qed.

Lemma hex_digit_lower n : (n < 16)%N -> is_lower_hex_char (hex_digit n) = true.
Proof.
  intro H. assert (In n (map N.of_nat (seq 0 16))).
  { apply in_map_iff. exists (N.to_nat n). split; [lia|]. apply in_seq. lia. }
  cbn in H0. repeat (destruct H0 as [<-|H0]; [reflexivity|]). contradiction.
Qed.

Lemma hex_digit_inj m n : (m < 16)%N -> (n < 16)%N -> hex_digit m = hex_digit n -> m = n.
Proof.
  intros Hm Hn H. apply (f_equal hex_val) in H.
  rewrite !hex_val_digit in H by assumption. congruence.
Qed.

Lemma val_split c : (16 * (val c / 16) + val c mod 16)%N = val c.
Proof. pose proof (N.div_mod (val c) 16). lia. Qed.

Lemma val_div_lt c : (val c / 16 < 16)%N.
Proof. pose proof (val_lt c). apply N.div_lt_upper_bound; lia. Qed.

Lemma val_mod_lt c : (val c mod 16 < 16)%N.
Proof. apply N.mod_lt; lia. Qed.

Lemma hex_encode_cons c s :
  hex_encode (c :: s) = hex_digit (val c / 16) :: hex_digit (val c mod 16) :: hex_encode s.
Proof. reflexivity. Qed.

Lemma hex_decode_encode s : hex_decode (hex_encode s) = Some s.
Proof.
  induction s as [|c s IH]; [reflexivity|].
  rewrite hex_encode_cons. cbn [hex_decode].
  rewrite !hex_val_digit by (apply val_div_lt || apply val_mod_lt).
  rewrite IH, val_split, byte_of_val. reflexivity.
Qed.

Lemma hex_encode_length s : length (hex_encode s) = 2 * length s.
Proof.
  induction s as [|c s IH]; [reflexivity|].
  rewrite hex_encode_cons. cbn [length]. lia.
Qed.

Lemma hex_encode_inj a b : hex_encode a = hex_encode b -> a = b.
Proof. intro H. apply (f_equal hex_decode) in H. rewrite !hex_decode_encode in H. congruence. Qed.

Lemma hex_encode_app a b : hex_encode (a ++ b) = hex_encode a ++ hex_encode b.
Proof. unfold hex_encode; apply flat_map_app. Qed.

Lemma hex_encode_lower s : forallb is_lower_hex_char (hex_encode s) = true.
Proof.
  induction s as [|c s IH]; [reflexivity|].
  rewrite hex_encode_cons. cbn [forallb].
  rewrite !hex_digit_lower by (apply val_div_lt || apply val_mod_lt). exact IH.
Qed.

(** Every byte, by cases. *)
Lemma all_bytes (P : ascii -> Prop) :
  (forall n, (n < 256)%nat -> P (byte_of (N.of_nat n))) -> forall c, P c.
Proof.
  intros H c. rewrite <- (byte_of_val c).
  replace (val c) with (N.of_nat (N.to_nat (val c))) by lia.
  apply H. pose proof (val_lt c); lia.
Qed.

Lemma bytes_forallb (p : ascii -> bool) :
  forallb p (map (fun n => byte_of (N.of_nat n)) (seq 0 256)) = true -> forall c, p c = true.
Proof.
  intro H. apply (all_bytes (fun c => p c = true)); intros n Hn.
  rewrite forallb_forall in H. apply H. apply in_map_iff. exists n; split; [reflexivity|].
  apply in_seq; lia.
Qed.

Lemma hex_val_lower c n : is_lower_hex_char c = true -> hex_val c = Some n -> c = hex_digit n /\ (n < 16)%N.
Proof.
  assert (H : forall c, (if is_lower_hex_char c then
             match hex_val c with Some n => Ascii.eqb c (hex_digit n) && (n <? 16)%N | None => true end
             else true) = true).
  { apply bytes_forallb. vm_compute. reflexivity. }
  intros H1 H2. specialize (H c). rewrite H1, H2 in H.
  apply andb_true_iff in H as [Ha Hb]. apply Ascii.eqb_eq in Ha. split; [exact Ha|lia].
Qed.

Lemma hex_val_lower_some c : is_lower_hex_char c = true -> exists n, hex_val c = Some n.
Proof.
  assert (H : forall c, (if is_lower_hex_char c then
             match hex_val c with Some n => true | None => false end
             else true) = true).
  { apply bytes_forallb. vm_compute. reflexivity. }
  intros H1. specialize (H c). rewrite H1 in H. destruct (hex_val c); [eauto|discriminate].
Qed.

(** On lowercase hex text of even length, decode then encode is the identity. *)
Lemma hex_encode_decode s : forallb is_lower_hex_char s = true -> Nat.even (length s) = true ->
  exists b, hex_decode s = Some b /\ hex_encode b = s.
Proof.
  assert (HH : forall n s, length s <= n -> forallb is_lower_hex_char s = true -> Nat.even (length s) = true ->
     exists b, hex_decode s = Some b /\ hex_encode b = s).
  { induction n as [|n IH]; intros t Hl Hx He.
    - destruct t; [exists []; split; reflexivity|cbn in Hl; lia].
    - destruct t as [|x [|y t]]; [exists []; split; reflexivity|discriminate He|].
      cbn [forallb] in Hx. apply andb_true_iff in Hx as [Hx1 Hx]. apply andb_true_iff in Hx as [Hx2 Hx].
      destruct (hex_val_lower_some x Hx1) as [a Ha]. destruct (hex_val_lower_some y Hx2) as [b Hb].
      destruct (hex_val_lower x a Hx1 Ha) as [Ea La]. destruct (hex_val_lower y b Hx2 Hb) as [Eb Lb].
      destruct (IH t) as (r & Hr & Er); [cbn [length] in Hl; lia|exact Hx|exact He|].
      exists (byte_of (16 * a + b) :: r). split.
      + cbn [hex_decode]. rewrite Ha, Hb, Hr. reflexivity.
      + rewrite hex_encode_cons, Er.
        rewrite val_byte_of by lia.
        replace ((16 * a + b) / 16)%N with a by (apply N.div_unique with b; lia).
        replace ((16 * a + b) mod 16)%N with b by (apply N.mod_unique with a; lia).
        congruence. }
  intros H1 H2; apply (HH (length s)); auto.
Qed.

(** Decimal text. *)
Lemma str_uint_uint_str u : str_uint (uint_str u) = u.
Proof. induction u; cbn [uint_str str_uint]; rewrite ?IHu; reflexivity. Qed.

Lemma uint_str_inj u v : uint_str u = uint_str v -> u = v.
Proof. intro H. apply (f_equal str_uint) in H. rewrite !str_uint_uint_str in H. exact H. Qed.

Lemma uint_str_digits u : forallb is_digit (uint_str u) = true.
Proof. induction u; cbn [uint_str forallb]; rewrite ?IHu; reflexivity. Qed.

Lemma to_uint_nonnil n : N.to_uint n <> Decimal.Nil.
Proof.
  destruct n as [|p]; [discriminate|]. cbn.
  intro H. pose proof (DecimalPos.Unsigned.to_uint_nonnil p). contradiction.
Qed.

Lemma dec_N_nonnil n : dec_N n <> [].
Proof.
  unfold dec_N. intro H. apply (to_uint_nonnil n). destruct (N.to_uint n); [reflexivity|discriminate ..].
Qed.

Lemma dec_N_digits n : forallb is_digit (dec_N n) = true.
Proof. apply uint_str_digits. Qed.

Lemma parse_digits_dec_N n : parse_digits (dec_N n) = Some n.
Proof.
  unfold parse_digits. destruct (dec_N n) eqn:E; [exfalso; apply (dec_N_nonnil n E)|].
  rewrite <- E, dec_N_digits. unfold dec_N. rewrite str_uint_uint_str, DecimalN.Unsigned.of_to. reflexivity.
Qed.

Lemma dec_N_inj m n : dec_N m = dec_N n -> m = n.
Proof. intro H. apply (f_equal parse_digits) in H. rewrite !parse_digits_dec_N in H. congruence. Qed.

Lemma digit_not_sign c : is_digit c = true -> c <> "-"%char /\ c <> "+"%char.
Proof. intro H; split; intros ->; discriminate. Qed.

Lemma dec_N_head n : exists c r, dec_N n = c :: r /\ is_digit c = true.
Proof.
  destruct (dec_N n) as [|c r] eqn:E; [exfalso; apply (dec_N_nonnil n E)|].
  exists c, r; split; [reflexivity|]. pose proof (dec_N_digits n) as H. rewrite E in H.
  cbn [forallb] in H. apply andb_true_iff in H; tauto.
Qed.

Lemma dec_Z_inj a b : dec_Z a = dec_Z b -> a = b.
Proof.
  assert (Hn : forall n p, dec_N n <> "-"%char :: dec_N (N.pos p)).
  { intros n p H. destruct (dec_N_head n) as (c & r & E & Hd). rewrite E in H.
    injection H as -> _. discriminate. }
  unfold dec_Z; destruct a as [|p|p], b as [|q|q]; intro H; try reflexivity;
    try (exfalso; eapply Hn; eauto; fail);
    try (apply dec_N_inj in H; cbn in H; congruence);
    try (symmetry in H; exfalso; eapply Hn; eauto; fail).
  injection H as H. apply dec_N_inj in H. congruence.
Qed.

Lemma parse_int_dec_Z z : (min_int64 <= z <= max_int64)%Z -> parse_int (dec_Z z) = Some z.
Proof.
  intro Hz. assert (Hr : ((min_int64 <=? z) && (z <=? max_int64))%Z = true) by lia.
  assert (Hpos : forall n, (Z.of_N n = z) -> parse_int (dec_N n) = Some z).
  { intros n Hn. destruct (dec_N_head n) as (c & r & E & Hd).
    assert (P := parse_digits_dec_N n). unfold parse_int. rewrite E in *.
    destruct (digit_not_sign c Hd) as [N1 N2].
    assert (match c :: r with
     | "-"%char :: r => match parse_digits r with None => None | Some n => let z := (- Z.of_N n)%Z in
                if ((min_int64 <=? z) && (z <=? max_int64))%Z then Some z else None end
     | "+"%char :: r => match parse_digits r with None => None | Some n => let z := (Z.of_N n)%Z in
                if ((min_int64 <=? z) && (z <=? max_int64))%Z then Some z else None end
     | _ => match parse_digits (c :: r) with None => None | Some n => let z := (Z.of_N n)%Z in
                if ((min_int64 <=? z) && (z <=? max_int64))%Z then Some z else None end
     end = match parse_digits (c :: r) with None => None | Some n => let z := (Z.of_N n)%Z in
                if ((min_int64 <=? z) && (z <=? max_int64))%Z then Some z else None end).
    { destruct c as [[] [] [] [] [] [] [] []]; try reflexivity; exfalso; (apply N1; reflexivity) || (apply N2; reflexivity). }
    cbv zeta beta in H |- *. rewrite H, P, Hn, Hr. reflexivity. }
  unfold dec_Z. destruct z as [|p|p].
  - apply Hpos. reflexivity.
  - apply Hpos. cbn. lia.
  - unfold parse_int. rewrite parse_digits_dec_N. cbv zeta.
    replace (- Z.of_N (N.pos p))%Z with (Z.neg p) by lia. rewrite Hr. reflexivity.
Qed.

Lemma parse_uint_dec z : (0 <= z <= max_uint64)%Z -> parse_uint (dec_N (Z.to_N z)) = Some z.
Proof.
  intro H. unfold parse_uint. rewrite parse_digits_dec_N, Z2N.id by lia.
  destruct (Z.leb_spec z max_uint64); [reflexivity|lia].
Qed.

(** A run of digits followed by a non-digit splits uniquely. *)
Lemma digits_split a b x y :
  forallb is_digit a = true -> forallb is_digit b = true ->
  (match x with [] => true | c :: _ => negb (is_digit c) end) = true ->
  (match y with [] => true | c :: _ => negb (is_digit c) end) = true ->
  a ++ x = b ++ y -> a = b /\ x = y.
Proof.
  revert b; induction a as [|c a IH]; intros [|d b] Ha Hb Hx Hy H; cbn [app] in H.
  - split; [reflexivity|exact H].
  - subst x. cbn in Hx, Hb. apply andb_true_iff in Hb as [Hb _]. rewrite Hb in Hx. discriminate.
  - subst y. cbn in Hy, Ha. apply andb_true_iff in Ha as [Ha _]. rewrite Ha in Hy. discriminate.
  - injection H as -> H. cbn in Ha, Hb. apply andb_true_iff in Ha as [_ Ha]. apply andb_true_iff in Hb as [_ Hb].
    destruct (IH b Ha Hb Hx Hy H) as [-> ->]. split; reflexivity.
Qed.

Lemma dec_Z_split a b x y :
  (match x with [] => true | c :: _ => negb (is_digit c) end) = true ->
  (match y with [] => true | c :: _ => negb (is_digit c) end) = true ->
  dec_Z a ++ x = dec_Z b ++ y -> a = b /\ x = y.
Proof.
  intros Hx Hy H.
  assert (Hd : forall n, forallb is_digit (dec_N n) = true) by apply dec_N_digits.
  assert (Hno : forall n p u v, dec_N n ++ u = ("-"%char :: dec_N p) ++ v -> False).
  { intros n p u v E. destruct (dec_N_head n) as (c & r & E2 & Hc). rewrite E2 in E.
    cbn in E. injection E as -> _. discriminate. }
  assert (Hpos : forall m n, dec_N m ++ x = dec_N n ++ y -> m = n /\ x = y).
  { intros m n E. destruct (digits_split _ _ _ _ (Hd m) (Hd n) Hx Hy E) as [E1 E2].
    apply dec_N_inj in E1. auto. }
  unfold dec_Z in H. destruct a as [|p|p], b as [|q|q];
    try (exfalso; eapply Hno; eauto; fail);
    try (symmetry in H; exfalso; eapply Hno; eauto; fail);
    try (apply Hpos in H as [H1 H2]; cbn in H1; split; congruence).
  cbn [app] in H. injection H as H. apply Hpos in H as [H1 H2]. split; congruence.
Qed.
