(** C62: the shared loading of the web-of-trust filter. *)
From Verif Require Import Base Machine WotModel WotProofs.
From Verif Require Import KeyModel KeyProofs HllProofs.
Import ListNotations.

Section Wot.
Context {P R : Type} (shid : P -> Z).
Notation step := (wot_step P R shid).
Notation run s := (reaches step (wot_init P R) s).
Definition key_of (s : wstate P R) (c : nat) : option P := option_map fst (nth_error (w_callers s) c).
Definition returned (s : wstate P R) (c : nat) (r : R) : Prop := exists p, nth_error (w_callers s) c = Some (p, CReturned r).
Definition computes (s : wstate P R) (c : nat) : Prop := exists p w, nth_error (w_callers s) c = Some (p, COwner w).
(** What a caller returns was computed, by a caller whose key has the same short id ... *)
Theorem C62_own_id s c r : run s -> returned s c r -> exists p d q, key_of s c = Some p /\ In (OComputed d r) (w_log s) /\ key_of s d = Some q /\ shid q = shid p.
Proof.
  intros H (p & HC). apply wot_inv in H. destruct (wi_log _ _ H _ _ (wi_ret _ _ H _ _ _ HC)) as (q & HQ & d & p' & ph & A & B & C). exists p, d, p'. unfold key_of. rewrite HC, B. cbn. split; [reflexivity|]. split; [exact A|]. split; [reflexivity|]. congruence.
Qed.
(** ... hence for the same key, when the keys in play have different short ids. *)
Theorem C62_own_key_partial s c r : run s -> (forall a b p q, key_of s a = Some p -> key_of s b = Some q -> shid p = shid q -> p = q) -> returned s c r ->
  exists d, In (OComputed d r) (w_log s) /\ key_of s d = key_of s c.
Proof. intros H INJ HR. destruct (C62_own_id _ _ _ H HR) as (p & d & q & A & B & C & D). exists d. split; [exact B|]. rewrite A, C. f_equal. eauto. Qed.
(** A caller gets one result. *)
Theorem C62_one_result s c r r' : run s -> In (OReturned c r) (w_log s) -> In (OReturned c r') (w_log s) -> r = r'.
Proof. intros H A B. apply wot_inv in H. destruct (wi_log _ _ H _ _ A) as (p & A' & _), (wi_log _ _ H _ _ B) as (q & B' & _). congruence. Qed.
(** No two computations whose ids share a slot go on at once, so at most eight at a time and never two for one key. *)
Theorem C62_one_computation_per_slot s c d p q : run s -> computes s c -> computes s d -> key_of s c = Some p -> key_of s d = Some q -> (shid p mod 8 = shid q mod 8)%Z -> c = d.
Proof.
  intros H (p' & w & HC) (q' & v & HD) K1 K2 E. unfold key_of in *. rewrite HC in K1. rewrite HD in K2. injection K1 as ->. injection K2 as ->. apply wot_inv in H.
  destruct (wi_ref _ _ H _ _ _ w HC (or_intror (or_intror (or_intror eq_refl)))) as [x HX]. destruct (wi_ref _ _ H _ _ _ v HD (or_intror (or_intror (or_intror eq_refl)))) as [y HY].
  destruct (wi_owner _ _ H _ _ _ _ HC HX) as [A1 A2], (wi_owner _ _ H _ _ _ _ HD HY) as [B1 B2]. pose proof (wi_open _ _ H _ _ HX A2) as S1. pose proof (wi_open _ _ H _ _ HY B2) as S2. unfold slot_of in *. rewrite A1 in S1. rewrite B1 in S2. rewrite E in S1. assert (w = v) as -> by congruence. exact (wi_one _ _ H _ _ _ _ _ HC HD).
Qed.
(** Without new callers everything ends: no schedule goes on for ever ... *)
Theorem C62_ends s : run s -> exists bound, forall acts s', forallb internal acts = true -> exec step acts s = Some s' -> length acts <= bound.
Proof. intro H. apply wot_inv in H. exists (weight s). intros acts s' F E. pose proof (weight_run shid acts s s' H F E). lia. Qed.
(** ... and when nothing can move every caller has returned, except those who joined a call after its results were sent. Missing: those (refuted below). *)
Definition joined_too_late (s : wstate P R) (c : nat) : Prop := exists p w x, nth_error (w_callers s) c = Some (p, CWaiting w) /\ nth_error (w_calls s) w = Some x /\ w_st x = WDone.
Theorem C62_everyone_answered_partial s (r0 : R) : run s -> (forall a, internal a = true -> step a s = None) -> forall c p, key_of s c = Some p -> (exists r, returned s c r) \/ joined_too_late s c.
Proof.
  intros H Q c p K. unfold key_of in K. destruct (nth_error (w_callers s) c) as [[p' ph]|] eqn:HC; [|discriminate]. apply wot_inv in H. destruct (wot_quiet shid s r0 H Q c p' ph HC) as [[r ->]|(w & x & -> & HX & D)].
  - left. exists r, p'. exact HC.
  - right. exists p', w, x. split; [exact HC|]. split; [exact HX|]. unfold is_done in D. destruct (w_st x); [discriminate|discriminate|reflexivity].
Qed.
End Wot.
Print Assumptions C62_own_id. Print Assumptions C62_own_key_partial. Print Assumptions C62_one_result. Print Assumptions C62_one_computation_per_slot. Print Assumptions C62_ends. Print Assumptions C62_everyone_answered_partial.

(** Three callers, two with one key and one with another key of the same slot: all answered. *)
Definition demo_acts : list (waction Z nat) := [WNew 1%Z; WNew 1%Z; WNew 9%Z; WLook 0; WLook 1; WLook 2; WJoin 1; WJoin 2; WCompute 0 5; WSend 0; WFinish 0; WAgain 2; WLook 2; WCompute 2 6; WFinish 2].
Example C62_example : exists s, exec (wot_step Z nat (fun z => z)) demo_acts (wot_init Z nat) = Some s /\ map snd (w_callers s) = [CReturned 5; CReturned 5; CReturned 6].
Proof. eexists. split; vm_compute; reflexivity. Qed.
(** A caller that read the slot before the owner emptied it but got the lock of the call only afterwards waits for ever: no schedule ever answers them. *)
Definition lost_acts : list (waction Z nat) := [WNew 1%Z; WNew 1%Z; WLook 0; WLook 1; WCompute 0 5; WFinish 0; WJoin 1].
Theorem C62_lost_caller_refuted : exists s, exec (wot_step Z nat (fun z => z)) lost_acts (wot_init Z nat) = Some s /\
  forall acts s', exec (wot_step Z nat (fun z => z)) acts s = Some s' -> forall r, ~ returned s' 1 r.
Proof.
  eexists. split; [vm_compute; reflexivity|]. intros acts s' H.
  assert (I : exists x, nth_error (w_callers s') 1 = Some (1%Z, CWaiting 0) /\ nth_error (w_calls s') 0 = Some x /\ w_st x = WDone).
  { revert H. apply (invariant_on (wot_step Z nat (fun z => z)) (fun _ => True) (fun s => exists x, nth_error (w_callers s) 1 = Some (1%Z, CWaiting 0) /\ nth_error (w_calls s) 0 = Some x /\ w_st x = WDone)); [eexists; cbn; eauto| |apply Forall_forall; auto].
    intros a s1 s2 _ (x & A & B & C) H. wot_cases H;
      try (assert (c <> 1) by (intros ->; congruence)).
    - exists x. split; [apply nth_snoc_old; exact A|auto].
    - exists x. rewrite nth_upd_other by assumption. auto.
    - exists x. rewrite nth_upd_other by assumption. split; [exact A|]. split; [apply nth_snoc_old; exact B|exact C].
    - exists x. rewrite nth_upd_other by assumption. split; [exact A|]. split; [|exact C]. rewrite nth_upd_other; [exact B|]. intros ->. congruence.
    - exists x. rewrite nth_upd_other by assumption. auto.
    - destruct (Nat.eq_dec w 0) as [->|N]; [|exists x; rewrite !nth_upd_other by assumption; auto]. eexists. rewrite nth_upd_other by assumption. split; [exact A|]. split; [apply nth_upd_same; exact (nth_lt _ _ _ B)|reflexivity].
    - exists x. rewrite nth_upd_other by assumption. auto.
    - exists x. split; [exact A|]. split; [|exact C]. rewrite nth_upd_other; [exact B|]. intros ->. congruence.
    - assert (W : w <> 0) by (intros ->; congruence). match goal with E : (?v =? w) = true |- _ => apply Nat.eqb_eq in E; subst v end. exists x. rewrite (nth_upd_other (w_calls s1)) by exact W. split; [|auto]. rewrite nth_upd_other; [exact A|]. intros ->. congruence.
    - exists x. rewrite nth_upd_other by assumption. split; [exact A|]. split; [|exact C]. rewrite nth_upd_other; [exact B|]. intros ->. congruence.
    - exists x. rewrite nth_upd_other by assumption. auto. }
  destruct I as (x & A & _). intros r (p & HP). congruence.
Qed.
Print Assumptions C62_lost_caller_refuted.
(** Two different public keys that agree in digits 32 to 47 share one computation. *)
Definition shid_of (pk : str) : Z := match pubkey_to_shid pk with Ok z => z | _ => 0%Z end.
Definition keyA : str := repeat "a"%char 64.
Definition keyB : str := repeat "b"%char 32 ++ repeat "a"%char 32.
Theorem C62_other_key_refuted : exists s, exec (wot_step str nat shid_of) [WNew keyA; WNew keyB; WLook 0; WLook 1; WJoin 1; WCompute 0 5; WSend 0] (wot_init str nat) = Some s /\
  keyA <> keyB /\ returned s 1 5 /\ key_of s 1 = Some keyB /\ (forall d, In (OComputed d 5) (w_log s) -> key_of s d = Some keyA).
Proof.
  eexists. split; [vm_compute; reflexivity|]. split; [vm_compute; discriminate|]. split; [eexists; reflexivity|]. split; [reflexivity|]. intros d [H|[H|[]]]; [discriminate|]. injection H as <-. reflexivity.
Qed.
Print Assumptions C62_other_key_refuted.
(** The id of a key is bytes 16 to 23 as a number; exactly keys of fewer than 48 digits panic. *)
Lemma hex_number_bytes s : forall acc, (0 <= acc)%Z -> hex_number acc (hex_encode s) = Some (acc * 256 ^ Z.of_nat (length s) + be_val s)%Z.
Proof.
  induction s as [|c s IH]; intros acc A; [cbn; f_equal; lia|]. cbn [hex_encode flat_map hex_byte app hex_number]. pose proof (val_lt c) as V. assert (D : (val c / 16 < 16 /\ val c mod 16 < 16)%N) by (split; [apply N.div_lt_upper_bound; lia|apply N.mod_lt; lia]). rewrite !hex_val_digit by apply D.
  unfold hex_encode in IH. rewrite IH by lia. rewrite be_val_cons. cbn [length]. rewrite Nat2Z.inj_succ, Z.pow_succ_r by lia. pose proof (N.div_mod (val c) 16 ltac:(lia)) as DM. f_equal.
  replace (16 * (16 * acc + Z.of_N (val c / 16)) + Z.of_N (val c mod 16))%Z with (256 * acc + Z.of_N (val c))%Z by lia. ring.
Qed.
Theorem C62_short_key_exact pk : pubkey_to_shid pk = Panic <-> (length pk < 48)%nat.
Proof. unfold pubkey_to_shid. destruct (Nat.ltb_spec (length pk) 48); split; intro; try reflexivity; try assumption; try discriminate; lia. Qed.
Theorem C62_shid b : length b = 32%nat -> pubkey_to_shid (hex_encode b) = Ok (be_val (firstn 8 (skipn 16 b))).
Proof.
  intro H. unfold pubkey_to_shid. rewrite hex_len, H. cbn [Nat.ltb Nat.leb Nat.mul Nat.add]. change 32%nat with (16 * 2)%nat at 1. rewrite hex_skip. change 16%nat with (8 * 2)%nat at 1. rewrite hex_take, hex_number_bytes by lia. reflexivity.
Qed.
Theorem C62_shid_same a b : length a = 32%nat -> length b = 32%nat -> pubkey_to_shid (hex_encode a) = pubkey_to_shid (hex_encode b) <-> firstn 8 (skipn 16 a) = firstn 8 (skipn 16 b).
Proof.
  intros LA LB. rewrite !C62_shid by assumption. split; [|intros ->; reflexivity]. intro H. apply be_val_inj; [rewrite !firstn_length, !skipn_length, LA, LB; reflexivity|congruence].
Qed.
Example C62_shid_example : pubkey_to_shid (B "7e7e9c42a91bfef19fa929e5fda1b72e0ebc1a4c1141673e2794234d86addf4e") = Ok 1061752526161930046%Z.
Proof. vm_compute. reflexivity. Qed.
Theorem C62_short_key_refuted : exists pk, pubkey_to_shid pk = Panic. Proof. exists (B "abc"). reflexivity. Qed.
Print Assumptions C62_short_key_refuted.

Print Assumptions C62_own_key_partial.
Print Assumptions C62_one_result.
Print Assumptions C62_one_computation_per_slot.
Print Assumptions C62_ends.
Print Assumptions C62_everyone_answered_partial.
Print Assumptions C62_short_key_exact.
Print Assumptions C62_shid.
Print Assumptions C62_shid_same.
