(** C126: names of wiki articles and keys from seed words. *)
From Verif Require Import Base EventModel WordsModel.
Import ListNotations.

(** ** Names *)
Section Names.
Variable lower : N -> N.
Variable space letter number : N -> bool.
Variable nfkc : list N -> list N.
Notation normalize := (normalize_identifier lower space letter number nfkc).
Definition between (a b c : N) : Prop := (a <= c <= b)%N.
Definition upper_case (c : N) : Prop := between 65 90 c.
Definition lower_case (c : N) : Prop := between 97 122 c.
Definition digit (c : N) : Prop := between 48 57 c.
Definition blank (c : N) : Prop := between 9 13 c \/ c = 32%N.
(** What Unicode says about ASCII. *)
Definition ascii_law : Prop :=
  (forall c, (c < 128)%N -> (upper_case c -> lower c = c + 32)%N /\ (~ upper_case c -> lower c = c)) /\
  (forall c, (c < 128)%N -> (space c = true <-> blank c) /\ (letter c = true <-> upper_case c \/ lower_case c) /\ (number c = true <-> digit c)) /\
  (forall s, Forall (fun c => c < 128)%N s -> nfkc s = s).
(** What NIP-54 makes of one ASCII character: letters in lower case, numbers as they are, the rest a hyphen. *)
Inductive wiki_char : N -> N -> Prop :=
| wiki_upper c : upper_case c -> wiki_char c (c + 32)
| wiki_same c : lower_case c \/ digit c -> wiki_char c c
| wiki_other c : ~ upper_case c -> ~ lower_case c -> ~ digit c -> wiki_char c 45.
(** [s] without the blanks at both ends. *)
Definition trimmed (s t : list N) : Prop :=
  exists a b, s = a ++ t ++ b /\ Forall blank a /\ Forall blank b /\ (forall c r, t = c :: r -> ~ blank c) /\ (forall c r, t = r ++ [c] -> ~ blank c).
Hypothesis law : ascii_law.
Notation small := (Forall (fun c => (c < 128)%N)).

Lemma lower_small c : (c < 128)%N -> (lower c < 128)%N.
Proof.
  intro H. destruct law as (L & _). destruct (L c H) as [L1 L2]. unfold upper_case, between in *. destruct (N.leb_spec 65 c); [destruct (N.leb_spec c 90)|].
  - rewrite L1 by lia. lia.
  - rewrite L2 by lia. exact H.
  - rewrite L2 by lia. exact H.
Qed.
Lemma lower_blank c : (c < 128)%N -> blank (lower c) <-> blank c.
Proof.
  intro H. destruct law as (L & _). destruct (L c H) as [L1 L2]. unfold upper_case, blank, between in *. destruct (N.leb_spec 65 c); [destruct (N.leb_spec c 90)|].
  - rewrite L1 by lia. lia.
  - rewrite L2 by lia. tauto.
  - rewrite L2 by lia. tauto.
Qed.
Lemma trim_front_spec s : small s -> exists a, s = a ++ trim_front space s /\ Forall blank a /\ forall c r, trim_front space s = c :: r -> ~ blank c.
Proof.
  induction 1 as [|c s H HS IH]; [exists []; repeat split; auto; discriminate|]. cbn [trim_front]. destruct law as (_ & L & _). destruct (L c H) as (L1 & _). destruct (space c) eqn:E.
  - destruct IH as (a & E1 & A & F). exists (c :: a). cbn [app]. rewrite <- E1. split; [reflexivity|]. split; [constructor; [apply L1; reflexivity|exact A]|exact F].
  - exists []. split; [reflexivity|]. split; [constructor|]. intros d r Q. assert (c = d) as -> by congruence. intro B0. apply L1 in B0. congruence.
Qed.
Lemma trim_both_spec s : small s -> trimmed s (trim_both space s).
Proof.
  intro H. destruct (trim_front_spec s H) as (a & E1 & A1 & F1). set (t := trim_front space s) in *.
  assert (HT : small (rev t)). { apply Forall_rev. rewrite E1 in H. apply Forall_app in H. apply H. }
  destruct (trim_front_spec (rev t) HT) as (b & E2 & A2 & F2). unfold trim_both. fold t. set (u := trim_front space (rev t)) in *.
  assert (E3 : t = rev u ++ rev b). { rewrite <- rev_app_distr, <- E2, rev_involutive. reflexivity. }
  exists a, (rev b). split; [rewrite <- E3; exact E1|]. split; [exact A1|]. split; [apply Forall_rev; exact A2|]. split.
  - intros c r Q. destruct t as [|d t']; [rewrite Q in E3; discriminate|]. rewrite Q in E3. assert (d = c) as -> by (cbn [app] in E3; congruence). apply (F1 c t'). reflexivity.
  - intros c r Q. apply (F2 c (rev r)). rewrite <- (rev_involutive u), Q, rev_app_distr. reflexivity.
Qed.
Lemma trimmed_unique s t t' : trimmed s t -> trimmed s t' -> t = t'.
Proof.
  assert (G : forall a t a' t' : list N, Forall blank a -> Forall blank a' -> (forall c r, t = c :: r -> ~ blank c) -> (forall c r, t' = c :: r -> ~ blank c) -> t <> [] -> t' <> [] -> a ++ t = a' ++ t' -> t = t').
  { clear. induction a as [|x a IH]; intros t a' t' A A' F F' NT NT' E.
    - destruct a' as [|x' a']; [exact E|]. cbn [app] in E. destruct t as [|c t]; [congruence|]. exfalso. inversion A'; subst. apply (F c t eq_refl). assert (c = x') as -> by congruence. assumption.
    - destruct a' as [|x' a'].
      + cbn [app] in E. destruct t' as [|c t']; [congruence|]. exfalso. inversion A; subst. apply (F' c t' eq_refl). assert (c = x) as -> by congruence. assumption.
      + inversion A; subst. inversion A'; subst. apply (IH t a' t'); auto. cbn [app] in E. congruence. }
  intros (a & b & E & A1 & A2 & F1 & F2) (a' & b' & E' & A1' & A2' & F1' & F2').
  assert (AB : forall l, Forall blank l -> forall c, In c l -> blank c) by (intros l H c I; rewrite Forall_forall in H; auto).
  destruct (list_eq_dec N.eq_dec t []) as [->|NT].
  - destruct t' as [|c r]; [reflexivity|]. exfalso. apply (F1' c r eq_refl). cbn [app] in E. assert (I : In c (a ++ b)) by (rewrite <- E, E'; apply in_or_app; right; left; reflexivity). apply in_app_or in I as [I|I]; [apply (AB a A1 c I)|apply (AB b A2 c I)].
  - destruct (list_eq_dec N.eq_dec t' []) as [->|NT'].
    + destruct t as [|c r]; [congruence|]. exfalso. apply (F1 c r eq_refl). cbn [app] in E'. assert (I : In c (a' ++ b')) by (rewrite <- E', E; apply in_or_app; right; left; reflexivity). apply in_app_or in I as [I|I]; [apply (AB a' A1' c I)|apply (AB b' A2' c I)].
    + assert (Q : t ++ b = t' ++ b').
      { apply (G a (t ++ b) a' (t' ++ b')); auto; [| |destruct t; [congruence|discriminate]|destruct t'; [congruence|discriminate]|congruence].
        - intros c r Q. destruct t as [|d t0]; [congruence|]. cbn [app] in Q. assert (d = c) as -> by congruence. apply (F1 c t0 eq_refl).
        - intros c r Q. destruct t' as [|d t0]; [congruence|]. cbn [app] in Q. assert (d = c) as -> by congruence. apply (F1' c t0 eq_refl). }
      assert (R : rev t = rev t'); [|rewrite <- (rev_involutive t), R, rev_involutive; reflexivity].
      apply (f_equal (@rev N)) in Q. rewrite !rev_app_distr in Q. assert (RN : forall l : list N, l <> [] -> rev l <> []) by (intros l H K; apply H; rewrite <- (rev_involutive l), K; reflexivity).
      apply (G (rev b) (rev t) (rev b') (rev t')); auto using Forall_rev.
      * intros c r K. apply (F2 c (rev r)). rewrite <- (rev_involutive t), K. reflexivity.
      * intros c r K. apply (F2' c (rev r)). rewrite <- (rev_involutive t'), K. reflexivity.
Qed.
(** For an ASCII name: blanks at the ends go, then one character at a time as the NIP says. *)
Theorem C126_ascii name : small name -> exists t, trimmed name t /\ Forall2 wiki_char t (normalize name).
Proof.
  intro H. unfold normalize_identifier. assert (HL : small (map lower name)) by (apply Forall_map; eapply Forall_impl; [|exact H]; intros c Hc; apply lower_small; exact Hc).
  destruct (trim_both_spec _ HL) as (a & b & E & A & A2 & F1 & F2). set (u := trim_both space (map lower name)) in *.
  apply map_eq_app in E as (a0 & r0 & -> & Ea & Er). apply map_eq_app in Er as (t & b0 & -> & Et & Eb).
  apply Forall_app in H as [Ha H]. apply Forall_app in H as [Ht Hb].
  assert (HU : small u) by (rewrite <- Et; apply Forall_map; eapply Forall_impl; [|exact Ht]; intros c Hc; apply lower_small; exact Hc).
  exists t. split.
  - exists a0, b0. split; [reflexivity|]. rewrite <- Ea in A. rewrite <- Eb in A2. rewrite Forall_map in A, A2. rewrite Forall_forall in A, A2, Ha, Hb, Ht. split; [apply Forall_forall; intros c I; apply lower_blank; auto|]. split; [apply Forall_forall; intros c I; apply lower_blank; auto|].
    split; intros c r Q B0; subst t.
    + apply (F1 (lower c) (map lower r)); [rewrite <- Et; reflexivity|]. apply lower_blank; [apply Ht; left; reflexivity|exact B0].
    + apply (F2 (lower c) (map lower r)); [rewrite <- Et, map_app; reflexivity|]. apply lower_blank; [apply Ht; apply in_or_app; right; left; reflexivity|exact B0].
  - destruct law as (L & P & Q). rewrite (Q u HU), <- Et, map_map. clear - L P Ht. induction Ht as [|c t H Ht IH]; [constructor|]. cbn [map]. constructor; [|exact IH].
    destruct (L c H) as [L1 L2]. assert (HB : (lower c < 128)%N) by (unfold upper_case, between in *; destruct (N.leb_spec 65 c); [destruct (N.leb_spec c 90)|]; [rewrite L1 by lia; lia|rewrite L2 by lia; exact H|rewrite L2 by lia; exact H]).
    destruct (P _ HB) as (_ & P1 & P2).
    assert (D : upper_case c \/ ~ upper_case c) by (unfold upper_case, between; lia). destruct D as [D|D].
    + rewrite (L1 D) in *. assert (X : letter (c + 32) = true) by (apply P1; right; unfold upper_case, lower_case, between in *; lia). rewrite X. cbn [orb]. constructor. exact D.
    + rewrite (L2 D) in *. destruct (letter c) eqn:E1; cbn [orb].
      * constructor. left. assert (X : true = true) by reflexivity. apply P1 in X as [X|X]; [contradiction|exact X].
      * destruct (number c) eqn:E2; [constructor; right; apply P2; reflexivity|]. constructor; [exact D| |].
        -- intro X. assert (false = true) by (apply P1; auto). discriminate.
        -- intro X. assert (false = true) by (apply P2; exact X). discriminate.
Qed.
(** The name of a name is itself, names that differ in case or in blanks at the ends are one, and a name has only lower case letters, digits and hyphens. *)
Definition name_char (c : N) : Prop := lower_case c \/ digit c \/ c = 45%N.
Lemma wiki_name c d : wiki_char c d -> name_char d.
Proof. unfold name_char. intros [x H|x H|x H1 H2 H3]; [left; unfold upper_case, lower_case, between in *; lia|tauto|auto]. Qed.
Lemma wiki_det c d d' : wiki_char c d -> wiki_char c d' -> d = d'.
Proof. unfold upper_case, lower_case, digit, between. intros H1 H2. inversion H1; inversion H2; subst; unfold upper_case, lower_case, digit, between in *; try lia. Qed.
Theorem C126_fixed name : small name -> Forall name_char (normalize name) /\ normalize (normalize name) = normalize name.
Proof.
  intro H. destruct (C126_ascii name H) as (t & _ & W).
  assert (NC : Forall name_char (normalize name)) by (clear - W; induction W; constructor; eauto using wiki_name). split; [exact NC|].
  assert (SM : small (normalize name)) by (eapply Forall_impl; [|exact NC]; intros c [Q|[Q|Q]]; unfold lower_case, digit, between in *; lia).
  assert (NB : forall c, name_char c -> ~ blank c) by (unfold name_char, blank, lower_case, digit, between; lia).
  destruct (C126_ascii _ SM) as (t' & T & W'). assert (t' = normalize name) as ->.
  { apply (trimmed_unique (normalize name)); [exact T|]. exists [], []. rewrite app_nil_r. repeat split; auto; intros c r Q; apply NB; rewrite Q in NC; [inversion NC; assumption|apply Forall_app in NC as [_ NC]; inversion NC; assumption]. }
  clear - NC W'. set (s := normalize name) in *. clearbody s. revert W'. generalize (normalize s). induction NC as [|c s Hc HS IH]; intros l W; inversion W as [|? d ? l' W1 W2]; subst; [reflexivity|]. f_equal; [|apply IH; exact W2].
  apply (wiki_det c); [exact W1|]. unfold name_char in Hc. destruct Hc as [Hc|[Hc| ->]]; [constructor; auto|constructor; auto|]. apply wiki_other; unfold upper_case, lower_case, digit, between; lia.
Qed.
Definition other_case (c d : N) : Prop := c = d \/ (upper_case c /\ d = c + 32)%N \/ (upper_case d /\ c = d + 32)%N.
Theorem C126_case name name' : small name -> small name' -> Forall2 other_case name name' -> normalize name = normalize name'.
Proof.
  intros H H' F. unfold normalize_identifier. assert (E : map lower name = map lower name'); [|rewrite E; reflexivity].
  destruct law as (L & _). induction F as [|c d l l' O F IH]; [reflexivity|]. inversion H; subst. inversion H'; subst. cbn [map]. rewrite IH by assumption. f_equal.
  destruct (L c) as [L1 L2]; [assumption|]. destruct (L d) as [L3 L4]; [assumption|]. unfold upper_case, between in *. destruct O as [->|[[O ->]|[O ->]]]; [reflexivity| |].
  - unfold upper_case, between in O. rewrite (L1 O), L4; [reflexivity|lia].
  - unfold upper_case, between in O. rewrite (L3 O), L2; [reflexivity|lia].
Qed.
(** Outside ASCII the normal form is taken after the change of case, so a name need not be in lower case, and the name of a name may be another one:
    U+1D400 (mathematical bold capital A) has no lower case and the compatible form "A". *)
Theorem C126_fixed_refuted : lower 0x1D400 = 0x1D400%N -> space 0x1D400 = false -> nfkc [0x1D400%N] = [65%N] ->
  exists name, normalize name = [65%N] /\ normalize (normalize name) = [97%N].
Proof.
  intros H1 H2 H3. destruct law as (L & P & Q). exists [0x1D400%N].
  assert (E : normalize [0x1D400%N] = [65%N]). { unfold normalize_identifier, trim_both. cbn [map]. rewrite H1. cbn [trim_front]. rewrite H2. cbn [rev app trim_front]. rewrite H2. cbn [rev app]. rewrite H3. cbn [map]. destruct (P 65%N) as (_ & P1 & _); [lia|]. assert (X : letter 65 = true) by (apply P1; left; unfold upper_case, between; lia). rewrite X. reflexivity. }
  split; [exact E|]. rewrite E. unfold normalize_identifier, trim_both. cbn [map]. destruct (L 65%N) as [L1 _]; [lia|]. rewrite L1 by (unfold upper_case, between; lia). change (65 + 32)%N with 97%N.
  destruct (P 97%N) as (P0 & P1 & _); [lia|]. assert (S0 : space 97 = false) by (destruct (space 97); [|reflexivity]; destruct P0 as [P0 _]; specialize (P0 eq_refl); unfold blank, between in P0; lia).
  cbn [trim_front]. rewrite S0. cbn [rev app trim_front]. rewrite S0. cbn [rev app]. rewrite (Q [97%N]) by (constructor; [lia|constructor]). cbn [map]. assert (X : letter 97 = true) by (apply P1; right; unfold lower_case, between; lia). rewrite X. reflexivity.
Qed.
End Names.
(** The laws hold of ASCII's own functions, and with one more character. *)
Definition toy_lower (c : N) : N := if ((65 <=? c) && (c <=? 90))%N then (c + 32)%N else c.
Definition toy_space (c : N) : bool := ((9 <=? c) && (c <=? 13) || (c =? 32))%N.
Definition toy_letter (c : N) : bool := ((65 <=? c) && (c <=? 90) || (97 <=? c) && (c <=? 122))%N.
Definition toy_number (c : N) : bool := ((48 <=? c) && (c <=? 57))%N.
Definition toy_nfkc (s : list N) : list N := map (fun c => if (c =? 0x1D400)%N then 65%N else c) s.
Example C126_law : ascii_law toy_lower toy_space toy_letter toy_number toy_nfkc /\ toy_lower 0x1D400 = 0x1D400%N /\ toy_space 0x1D400 = false /\ toy_nfkc [0x1D400%N] = [65%N].
Proof.
  split; [|repeat split]. split; [|split].
  - intros c _. unfold toy_lower, upper_case, between. destruct (N.leb_spec 65 c), (N.leb_spec c 90); cbn [andb]; lia.
  - intros c _. unfold toy_space, toy_letter, toy_number, blank, upper_case, lower_case, digit, between. rewrite !orb_true_iff, !andb_true_iff, !N.leb_le, N.eqb_eq. tauto.
  - intros s H. unfold toy_nfkc. induction H as [|c s Hc H IH]; [reflexivity|]. cbn [map]. rewrite IH. destruct (N.eqb_spec c 0x1D400); [lia|reflexivity].
Qed.
Example C126_example : normalize_identifier toy_lower toy_space toy_letter toy_number toy_nfkc (map N_of_ascii (B "  Wiki Article #1 ")) = map N_of_ascii (B "wiki-article--1").
Proof. vm_compute. reflexivity. Qed.

(** ** Keys from seed words *)
(** A derivation path as it is written: "m", then steps after slashes, hardened if they end in an apostrophe. *)
Fixpoint steps (cur : option Z) (s : str) : option (list Z) :=
  match s with
  | [] => match cur with Some n => Some [n] | None => None end
  | c :: r =>
    if ceqb c "/"%char then match cur, steps None r with Some n, Some l => Some (n :: l) | _, _ => None end
    else if ceqb c "'"%char then match cur with Some n => match r with [] => Some [n + 2 ^ 31]%Z | d :: r' => if ceqb d "/"%char then match steps None r' with Some l => Some (n + 2 ^ 31 :: l)%Z | None => None end else None end | None => None end
    else if is_digit c then steps (Some (match cur with Some n => n * 10 | None => 0 end + Z.of_N (N_of_ascii c) - 48)%Z) r
    else None
  end.
Definition written_path (s : str) : option (list Z) := match s with m :: c :: r => if ceqb m "m"%char && ceqb c "/"%char then steps None r else None | _ => None end.
(** The key at a path below the seed, as BIP-32 says. *)
Inductive derives {key} (child : key -> Z -> option key) : key -> list Z -> key -> Prop :=
| derives_here k : derives child k [] k
| derives_step k i k' l k'' : child k i = Some k' -> derives child k' l k'' -> derives child k (i :: l) k''.
(** The key of seed words is the one at the path of NIP-06, in lower case hex, and there is none only if one of the steps fails. *)
Theorem C126_seed key (master : str -> option key) child bytes seed s : key_from_seed key master child bytes seed = Some s <->
  exists k l k', master seed = Some k /\ written_path (B "m/44'/1237'/0'/0/0") = Some l /\ derives child k l k' /\ s = hex_encode (bytes k').
Proof.
  assert (P : written_path (B "m/44'/1237'/0'/0/0") = Some seed_path) by (vm_compute; reflexivity).
  assert (W : forall l k k', walk key child k l = Some k' <-> derives child k l k').
  { induction l as [|i l IH]; intros k k'; cbn [walk].
    - split; [intro H; injection H as <-; constructor|intro H; inversion H; reflexivity].
    - destruct (child k i) as [k1|] eqn:E.
      + rewrite IH. split; [intro H; econstructor; eassumption|intro H; inversion H as [|? ? k2 ? ? E2 D]; subst; congruence].
      + split; [discriminate|intro H; inversion H; subst; congruence]. }
  unfold key_from_seed. split.
  - destruct (master seed) as [k|]; [|discriminate]. destruct (walk key child k seed_path) as [k'|] eqn:E; [|discriminate]. intro H. injection H as <-. exists k, seed_path, k'. split; [reflexivity|]. split; [exact P|]. split; [apply W; exact E|reflexivity].
  - intros (k & l & k' & H1 & H2 & H3 & ->). rewrite P in H2. injection H2 as <-. rewrite H1. apply W in H3. rewrite H3. reflexivity.
Qed.
Example C126_seed_example : key_from_seed (list Z) (fun _ => Some []) (fun k i => Some (k ++ [i])) (fun k => map (fun i => ascii_of_N (Z.to_N (i mod 256))) k) (B "seed") = Some (B "2cd5000000").
Proof. vm_compute. reflexivity. Qed.

Print Assumptions C126_ascii.
Print Assumptions C126_fixed.
Print Assumptions C126_case.
Print Assumptions C126_fixed_refuted.
Print Assumptions C126_seed.
