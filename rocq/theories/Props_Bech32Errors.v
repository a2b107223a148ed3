(** C129: how many wrong characters of a bech32 text are noticed. *)
From Verif Require Import Base EventModel TagsModel FilterModel Bech32Model Bech32Proofs Bech32Errors Nip19Model Nip19Proofs.
Import ListNotations.
Open Scope N_scope.

Lemma no_one_in t : ~ In "1"%char t -> no_one t = true.
Proof. intro H. unfold no_one. apply forallb_forall. intros x Hx. apply negb_true_iff, Ascii.eqb_neq. intros ->. contradiction. Qed.
Lemma places_same t : places t t = [].
Proof. induction t as [|c t IH]; [reflexivity|]. cbn [places]. unfold ceqb. rewrite Ascii.eqb_refl. exact IH. Qed.

(** What [places] lists: the distances from the end at which the texts differ by more than case. *)
Theorem C129_places t : forall t', length t' = length t -> forall k, In k (places t t') <->
  exists c c', nth_error (rev t) k = Some c /\ nth_error (rev t') k = Some c' /\ lower c <> lower c'.
Proof.
  assert (NE : forall (l : str) x k, nth_error (l ++ [x]) k = if Nat.ltb k (length l) then nth_error l k else if Nat.eqb k (length l) then Some x else None).
  { intros l x k. destruct (Nat.ltb_spec k (length l)); [apply nth_error_app1; assumption|]. rewrite nth_error_app2 by assumption. destruct (Nat.eqb_spec k (length l)) as [->|D]; [rewrite Nat.sub_diag; reflexivity|].
    destruct (k - length l)%nat as [|q] eqn:Q; [lia|]. destruct q; reflexivity. }
  induction t as [|c r IH]; intros [|c' r'] L k; cbn [length] in L; try discriminate.
  - cbn [places rev]. split; [intros []|]. intros (x & x' & H & _). destruct k; discriminate H.
  - injection L as L. cbn [rev]. rewrite !NE, !rev_length, L. specialize (IH r' L k). cbn [places].
    assert (IN : forall (P : Prop) , (In k (places r r') -> (k < length r)%nat)).
    { intros _ H. apply IH in H as (x & _ & H & _). assert (Z : (k < length (rev r))%nat) by (apply nth_error_Some; congruence). rewrite rev_length in Z. exact Z. }
    specialize (IN True).
    destruct (Nat.ltb_spec k (length r)) as [K|K].
    + rewrite <- IH. unfold ceqb. destruct (Ascii.eqb_spec (lower c) (lower c')) as [E|E]; [reflexivity|]. cbn [In]. split; [intros [Q|H]; [lia|exact H]|intro H; right; exact H].
    + destruct (Nat.eqb_spec k (length r)) as [->|D].
      * unfold ceqb. destruct (Ascii.eqb_spec (lower c) (lower c')) as [E|E].
        -- split; [intro H; apply IN in H; lia|]. intros (x & x' & [= <-] & [= <-] & H). contradiction.
        -- split; [intros _; exists c, c'; repeat split; exact E|intros _; left; reflexivity].
      * split; [|intros (x & ? & H & _); discriminate]. unfold ceqb. destruct (Ascii.eqb (lower c) (lower c')); [intro H; apply IN in H; lia|]. intros [H|H]; [congruence|apply IN in H; lia].
Qed.

Lemma pair_err pre t t' r : decode (pre ++ t) = Ok r -> ~ In "1"%char t -> ~ In "1"%char t' -> t <> [] -> length t' = length t ->
  (forall l, map fst l = places t t' -> Forall (fun p => (fst p < length t)%nat /\ snd p < 32 /\ snd p <> 0) l -> (forall k e q, l = (k, e) :: q -> Forall (fun p => (fst p < k)%nat) q) ->
    syn l <> 0 /\ syn l <> delta) -> decode (pre ++ t') = Err.
Proof.
  intros H N1 N2 NE L F. apply decode_not_ok. intros h2 ds2 H2. destruct (decode_pair pre t t' r (h2, ds2) H H2 (no_one_in t N1) (no_one_in t' N2) NE L) as (l & P1 & P2 & P3 & [Z|Z]); destruct (F l P1 P2 P3); contradiction.
Qed.
Lemma two_syn i j e f : (i mod 1023 <> j mod 1023)%nat -> ~ ((i mod 1023 = 33 /\ j mod 1023 = 192) \/ (i mod 1023 = 192 /\ j mod 1023 = 33))%nat -> e < 32 -> e <> 0 -> f < 32 -> f <> 0 ->
  syn [(i, e); (j, f)] <> 0 /\ syn [(i, e); (j, f)] <> delta.
Proof.
  intros D U E1 E2 F1 F2. cbn [syn]. rewrite N.lxor_0_r, (drift_period i e E1), (drift_period j f F1).
  assert (BI : (i mod 1023 < 1023)%nat) by (apply Nat.mod_upper_bound; discriminate). assert (BJ : (j mod 1023 < 1023)%nat) by (apply Nat.mod_upper_bound; discriminate).
  generalize dependent (i mod 1023)%nat. generalize dependent (j mod 1023)%nat. intros b Bb a NE U Ba. split; intro Z.
  - apply NE. apply N.lxor_eq in Z. exact (two_same a b e f Ba Bb E1 E2 F1 F2 Z).
  - apply U. exact (two_delta a b e f Ba Bb E1 E2 F1 F2 Z).
Qed.

(** ** Two wrong characters, any length *)
(** All texts, however long: two wrong characters are noticed unless their distance is a multiple of 1023, or they stand at distances 33 and 192 from the end
    (again but for multiples of 1023). *)
Theorem C129_two_any_length pre t t' r i j : decode (pre ++ t) = Ok r -> ~ In "1"%char t -> ~ In "1"%char t' -> length t' = length t -> places t t' = [i; j] ->
  (i mod 1023 <> j mod 1023)%nat -> ~ ((i mod 1023 = 33 /\ j mod 1023 = 192) \/ (i mod 1023 = 192 /\ j mod 1023 = 33))%nat -> decode (pre ++ t') = Err.
Proof.
  intros H N1 N2 L P D U. apply (pair_err pre t t' r H N1 N2); [intros ->; discriminate P|exact L|].
  intros l M F _. rewrite P in M. destruct l as [|[a e] [|[b f] [|]]]; try discriminate. cbn [map fst] in M. injection M as -> ->.
  inversion F as [|? ? (A1 & A2 & A3) F2]; subst. inversion F2 as [|? ? (B1 & B2 & B3) _]; subst. apply two_syn; assumption.
Qed.

(** One or two wrong characters among the last 192 are always noticed. *)
Theorem C129_two pre t t' r : decode (pre ++ t) = Ok r -> ~ In "1"%char t -> ~ In "1"%char t' -> length t' = length t -> (length t <= 192)%nat ->
  (1 <= length (places t t') <= 2)%nat -> decode (pre ++ t') = Err.
Proof.
  intros H N1 N2 L LT P. apply (pair_err pre t t' r H N1 N2); [intros ->; cbn in P; lia|exact L|].
  intros l M F O. rewrite <- M, map_length in P. destruct l as [|[a e] [|[b f] [|]]]; cbn [length] in P; try lia.
  - inversion F as [|? ? (A1 & A2 & A3) _]; subst. cbn [syn]. rewrite N.lxor_0_r. apply drift_never; assumption.
  - inversion F as [|? ? (A1 & A2 & A3) F2]; subst. inversion F2 as [|? ? (B1 & B2 & B3) _]; subst. cbn [fst snd] in *.
    specialize (O a e _ eq_refl). inversion O as [|? ? O1 _]; subst. cbn [fst] in O1. apply two_syn; try assumption; rewrite !Nat.mod_small by lia; lia.
Qed.

(** ** Three wrong characters *)
(** Among the last 79 characters up to three are always noticed: every npub, nsec and note has 58. *)
Theorem C129_three pre t t' r : decode (pre ++ t) = Ok r -> ~ In "1"%char t -> ~ In "1"%char t' -> length t' = length t -> (length t <= 79)%nat ->
  (1 <= length (places t t') <= 3)%nat -> decode (pre ++ t') = Err.
Proof.
  intros H N1 N2 L LT P. destruct (Nat.le_gt_cases (length (places t t')) 2) as [Q|Q]; [apply (C129_two pre t t' r); try assumption; lia|].
  apply (pair_err pre t t' r H N1 N2); [intros ->; cbn in P; lia|exact L|].
  intros l M F O. rewrite <- M, map_length in P, Q. destruct l as [|[a e] [|[b f] [|[c g] [|]]]]; cbn [length] in P, Q; try lia.
  inversion F as [|? ? (A1 & A2 & A3) F2]; subst. inversion F2 as [|? ? (B1 & B2 & B3) F3]; subst. inversion F3 as [|? ? (C1 & C2 & C3) _]; subst. cbn [fst snd] in *.
  specialize (O a e _ eq_refl). inversion O as [|? ? O1 _]; subst. cbn [fst] in O1. cbn [syn]. rewrite N.lxor_0_r, <- N.lxor_assoc.
  apply (three_facts 79 three_checked); try assumption; lia.
Qed.

(** ** Keys and notes *)
(** Whatever the key: up to three wrong characters in its npub, nsec or note text are noticed. *)
Theorem C129_keys prefix s b t0 : In prefix [B "nsec"; B "npub"; B "note"] -> hex_decode s = Some b -> length b = 32%nat -> encode_hex prefix s = Ok t0 ->
  exists t, t0 = prefix ++ B "1" ++ t /\ length t = 58%nat /\ nip19_decode (prefix ++ B "1" ++ t) = Ok (prefix, KHex (hex_encode b)) /\
    forall t', length t' = 58%nat -> ~ In "1"%char t' -> (1 <= length (places t t') <= 3)%nat -> nip19_decode (prefix ++ B "1" ++ t') = Err.
Proof.
  intros Hp Hs Hb He. destruct (code_hex_round prefix s b Hp Hs Hb) as (t1 & E1 & D1). rewrite He in E1. injection E1 as <-.
  unfold encode_hex, from_hex in He. rewrite Hs in He. cbn [obind] in He. unfold to_code in He.
  assert (FB : Forall (fun x => x < 256) (nums_of b)) by (unfold nums_of; apply Forall_forall; intros x Hx; apply in_map_iff in Hx as (c & <- & _); apply val_lt).
  destruct (groups_spec (nums_of b) FB) as (out & k & G1 & G2 & G4 & G3). rewrite G1 in He. cbn [obind] in He. unfold encode in He. destruct (forallb _ out) eqn:FO; [|discriminate].
  assert (LO : length out = 52%nat).
  { apply (f_equal (@length bool)) in G4. rewrite app_length, !flat_bits_length, repeat_length in G4. unfold nums_of in G4. rewrite map_length, Hb in G4. lia. }
  assert (ML : map lower prefix = prefix) by (destruct Hp as [<-|[<-|[<-|[]]]]; vm_compute; reflexivity). rewrite ML in He. assert (OI : forall x y : str, Ok x = Ok y -> x = y) by (intros x y Q; congruence). apply OI in He.
  assert (FV : Forall (fun v => v < 32) (out ++ checksum prefix out)).
  { apply Forall_app. split; [|apply checksum_lt]. apply Forall_forall. intros v Hv. rewrite forallb_forall in FO. apply N.ltb_lt, FO, Hv. }
  exists (map char_of (out ++ checksum prefix out)). rewrite map_app. split; [rewrite <- He; reflexivity|]. rewrite <- map_app.
  assert (LT : length (map char_of (out ++ checksum prefix out)) = 58%nat) by (rewrite map_length, app_length, checksum_length, LO; reflexivity). split; [exact LT|].
  rewrite <- He, <- map_app in D1. split; [exact D1|]. intros t' L' O' P'.
  unfold nip19_decode in D1 |- *. change (prefix ++ "1"%char :: map char_of (out ++ checksum prefix out)) with (prefix ++ B "1" ++ map char_of (out ++ checksum prefix out)) in D1.
  destruct (decode (prefix ++ B "1" ++ map char_of (out ++ checksum prefix out))) as [r| |] eqn:DD; try discriminate. rewrite app_assoc in DD |- *.
  rewrite (C129_three (prefix ++ B "1") (map char_of (out ++ checksum prefix out)) t' r DD); [reflexivity| |exact O'|rewrite LT; exact L'|rewrite LT; lia|exact P'].
  intro O. apply in_map_iff in O as (v & E & Hv). rewrite Forall_forall in FV. pose proof (char_facts v (FV v Hv)) as F. rewrite E in F. revert F. cbv. discriminate.
Qed.

(** Four wrong characters may turn one public key into another: the changed text passes as bech32m, a second checksum the decoder also takes. *)
Definition npub1 : str := B "0elfcs4fr0l0r8af98jlmgdh9c8tcxjvz9qkw038js35mp4dma8qzvjptg".
Definition npub2 : str := B "0elfcs4fr0l0r8af98jlmgdh9c8tcxjvz9qkw038js35mp4dpa8qnvjpxv".
Theorem C129_four_refuted : length npub1 = 58%nat /\ places npub1 npub2 = [9; 5; 1; 0]%nat /\ exists k k',
  encode_public_key k = Ok (B "npub1" ++ npub1) /\ nip19_decode (B "npub1" ++ npub2) = Ok (B "npub", KHex k') /\ k' <> k /\ length k' = 64%nat /\ encode_public_key k' <> Ok (B "npub1" ++ npub2).
Proof.
  split; [reflexivity|]. split; [vm_compute; reflexivity|]. exists (B "7e7e9c42a91bfef19fa929e5fda1b72e0ebc1a4c1141673e2794234d86addf4e"). eexists.
  split; [vm_compute; reflexivity|]. split; [vm_compute; reflexivity|]. split; [intro H; vm_compute in H; discriminate|]. split; [vm_compute; reflexivity|]. intro H. vm_compute in H. discriminate.
Qed.
(** Change some values: distance from the end and what to xor. *)
Fixpoint change (l : list (nat * N)) (t : str) : str :=
  match t with
  | [] => []
  | c :: r => match find (fun p => Nat.eqb (fst p) (length r)) l, value_of c with Some (_, e), Some v => char_of (N.lxor v e) :: change l r | _, _ => c :: change l r end
  end.
(** With 80 characters three wrong ones may pass, with 193 two may. *)
Theorem C129_three_far_refuted : exists pre t t' r r', decode (pre ++ t) = Ok r /\ ~ In "1"%char t /\ ~ In "1"%char t' /\ length t = 80%nat /\ length t' = 80%nat /\ length (places t t') = 3%nat /\
  decode (pre ++ t') = Ok r' /\ r' <> r.
Proof.
  set (t := map char_of (repeat 0 74 ++ checksum (B "a") (repeat 0 74))). set (t' := change [(79%nat, 20); (69%nat, 19); (58%nat, 20)] t).
  exists (B "a1"), t, t'. eexists. eexists. split; [vm_compute; reflexivity|]. split; [intro H; vm_compute in H; intuition discriminate|]. split; [intro H; vm_compute in H; intuition discriminate|].
  split; [vm_compute; reflexivity|]. split; [vm_compute; reflexivity|]. split; [vm_compute; reflexivity|]. split; [vm_compute; reflexivity|]. intro H. vm_compute in H. discriminate.
Qed.
Theorem C129_two_far_refuted : exists pre t t' r r', decode (pre ++ t) = Ok r /\ ~ In "1"%char t /\ ~ In "1"%char t' /\ length t = 193%nat /\ length t' = 193%nat /\ length (places t t') = 2%nat /\
  decode (pre ++ t') = Ok r' /\ r' <> r.
Proof.
  set (t := map char_of (repeat 0 187 ++ checksum (B "a") (repeat 0 187))). set (t' := change [(192%nat, 19); (33%nat, 19)] t).
  exists (B "a1"), t, t'. eexists. eexists. split; [vm_compute; reflexivity|]. split; [intro H; vm_compute in H; intuition discriminate|]. split; [intro H; vm_compute in H; intuition discriminate|].
  split; [vm_compute; reflexivity|]. split; [vm_compute; reflexivity|]. split; [vm_compute; reflexivity|]. split; [vm_compute; reflexivity|]. intro H. vm_compute in H. discriminate.
Qed.
(** Both kinds of text, three letters changed in one and two in the other. *)
Example C129_example : let t' := B "qelfcs4fr0l0r8af98jlmgdh9c8tcxjvz9qkw038js35mp4dma8qzvjpqq" in
  length (places npub1 t') = 3%nat /\ nip19_decode (B "npub1" ++ npub1) = Ok (B "npub", KHex (B "7e7e9c42a91bfef19fa929e5fda1b72e0ebc1a4c1141673e2794234d86addf4e")) /\ nip19_decode (B "npub1" ++ t') = Err /\
  places (B "2uel5l") (B "2Uem5p") = [2; 0]%nat /\ decode (B "a1" ++ B "2uel5l") = Ok (B "a", []) /\ decode (B "a1" ++ B "2uem5p") = Err.
Proof. vm_compute. repeat split; reflexivity. Qed.

Print Assumptions C129_places.
Print Assumptions C129_two_any_length.
Print Assumptions C129_two.
Print Assumptions C129_three.
Print Assumptions C129_keys.
Print Assumptions C129_four_refuted.
Print Assumptions C129_three_far_refuted.
Print Assumptions C129_two_far_refuted.
