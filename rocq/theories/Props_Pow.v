(** C33: proof of work. *)
From Verif Require Import Base EventModel TagsModel TagsProofs PowModel PowProofs.
Local Open Scope Z_scope.

(** z is the number of leading zero bits of the 256-bit number written by the bytes b *)
Definition leading_zeros (b : str) (z : Z) : Prop :=
  0 <= z <= 256 /\ value b < 2 ^ (256 - z) /\ (z < 256 -> 2 ^ (255 - z) <= value b).
Lemma leading_zeros_unique b z z' : leading_zeros b z -> leading_zeros b z' -> z = z'.
Proof.
  intros (A & C & D) (A' & C' & D'). destruct (Z.lt_trichotomy z z') as [H|[H|H]]; [|exact H|].
  - specialize (D ltac:(lia)). assert (P : 2 ^ (256 - z') <= 2 ^ (255 - z)) by (apply Z.pow_le_mono_r; lia). lia.
  - specialize (D' ltac:(lia)). assert (P : 2 ^ (256 - z) <= 2 ^ (255 - z')) by (apply Z.pow_le_mono_r; lia). lia.
Qed.

(** Every 64-digit hex id (either case); characters after the 64th are not looked at. *)
Theorem C33_difficulty_counts id rest b : hex_decode id = Some b -> length id = 64%nat ->
  exists z, difficulty (id ++ rest) = Ok z /\ leading_zeros b z.
Proof.
  intros D L. assert (Lb := hex_decode_len _ _ D). assert (L32 : length b = 32%nat) by lia. exists (difficulty_bytes b). split.
  - unfold difficulty. rewrite (difficulty_loop_spec 32 0 id b rest D L32). reflexivity.
  - assert (S := difficulty_bytes_spec b). cbv zeta in S. rewrite L32 in S. change (8 * Z.of_nat 32) with 256 in S. destruct S as (A & C & E).
    split; [exact A|]. split; [exact C|]. intro H. replace (255 - difficulty_bytes b) with (256 - difficulty_bytes b - 1) by lia. apply E, H.
Qed.
Print Assumptions C33_difficulty_counts.
Theorem C33_check_exact id b target : hex_decode id = Some b -> length id = 64%nat ->
  forall z, leading_zeros b z -> (check_pow id target = Ok tt <-> target <= z) /\ (check_pow id target = Err <-> z < target).
Proof.
  intros D L z H. destruct (C33_difficulty_counts id [] b D L) as (z' & E & H'). rewrite app_nil_r in E. rewrite <- (leading_zeros_unique b z' z H' H). clear H.
  unfold check_pow. rewrite E. cbn [obind]. destruct (Z.ltb_spec z' target); split; split; intro; try discriminate; try lia; reflexivity.
Qed.
Print Assumptions C33_check_exact.
Example C33_example : difficulty (B "000006d8c378af1779d2feebc7603a125d99eca0ccf1085959b307f64e5dd358") = Ok 21 /\
  check_pow (B "000006d8c378af1779d2feebc7603a125d99eca0ccf1085959b307f64e5dd358") 21 = Ok tt /\
  check_pow (B "000006d8c378af1779d2feebc7603a125d99eca0ccf1085959b307f64e5dd358") 22 = Err.
Proof. vm_compute. repeat split. Qed.

(** Ids of 64 characters or more never crash it. *)
Theorem C33_no_crash_partial id : (64 <= length id)%nat -> difficulty id <> Panic.
Proof. intro H. apply difficulty_no_panic. lia. Qed.
Print Assumptions C33_no_crash_partial.
(** Exactly which ids crash it: zeros all the way, at most one character after the last pair, and too short. *)
Theorem C33_panics_exactly id : difficulty id = Panic <-> exists k tail, (k < 32)%nat /\ (length tail < 2)%nat /\ id = repeat "0"%char (2 * k) ++ tail.
Proof.
  unfold difficulty. assert (G : forall n z s, difficulty_loop n z s = Panic <-> exists k tail, (k < n)%nat /\ (length tail < 2)%nat /\ s = repeat "0"%char (2 * k) ++ tail); [|apply G].
  induction n as [|n IH]; intros z s; cbn [difficulty_loop].
  - split; [discriminate|]. intros (k & t & L & _). lia.
  - destruct s as [|a [|b r]].
    + split; [|reflexivity]. intros _. exists 0%nat, []. cbn. repeat split; lia.
    + split; [|reflexivity]. intros _. exists 0%nat, [a]. cbn. repeat split; lia.
    + destruct (seqb_spec [a; b] (B "00")) as [E|E].
      * injection E as -> ->. rewrite IH. split.
        -- intros (k & t & L1 & L2 & ->). exists (S k), t. replace (2 * S k)%nat with (S (S (2 * k))) by lia. cbn [repeat app]. repeat split; lia.
        -- intros (k & t & L1 & L2 & Et). destruct k as [|k]; [cbn in Et; subst t; cbn in L2; lia|]. replace (2 * S k)%nat with (S (S (2 * k))) in Et by lia. cbn [repeat app] in Et.
           exists k, t. repeat split; [lia|lia|congruence].
      * split.
        -- destruct (hex_decode [a; b]) as [[|x y]|]; discriminate.
        -- intros (k & t & L1 & L2 & Et). exfalso. destruct k as [|k]; [cbn in Et; subst t; cbn in L2; lia|]. replace (2 * S k)%nat with (S (S (2 * k))) in Et by lia. cbn [repeat app] in Et.
           apply E. injection Et as -> -> _. reflexivity.
Qed.
Print Assumptions C33_panics_exactly.
Example C33_panics_exactly_applies : difficulty (repeat "0"%char 20 ++ B "f") = Panic /\ difficulty (repeat "0"%char 20 ++ B "ff") = Ok 80 /\ difficulty (B "00zz") = Ok (-1).
Proof. vm_compute. repeat split. Qed.
(** Shorter ones can; longer ones are measured; text that is not hex can go unnoticed. *)
Theorem C33_other_inputs_refuted :
  difficulty (B "") = Panic /\ difficulty (repeat "0"%char 63) = Panic /\ difficulty (B "0f") = Ok 4 /\
  (exists id, length id = 65%nat /\ difficulty id = Ok 256) /\ (exists id, hex_decode id = None /\ length id = 64%nat /\ difficulty id = Ok 8).
Proof.
  split; [reflexivity|]. split; [reflexivity|]. split; [reflexivity|]. split.
  - exists (repeat "0"%char 65). split; reflexivity.
  - exists (B "00ff" ++ repeat "z"%char 60). split; [vm_compute; reflexivity|]. split; vm_compute; reflexivity.
Qed.
Print Assumptions C33_other_inputs_refuted.
(** A pair that is not hex right after zero pairs is reported by -1. *)
Theorem C33_not_hex_reported k a b rest : (k < 32)%nat -> hex_decode [a; b] = None -> difficulty (repeat "0"%char (2 * k) ++ a :: b :: rest) = Ok (-1).
Proof.
  intros Hk H. unfold difficulty. assert (G : forall n z, (k < n)%nat -> difficulty_loop n z (repeat "0"%char (2 * k) ++ a :: b :: rest) = Ok (-1)); [|apply G; lia].
  clear Hk. induction k as [|k IH]; intros n z Hn.
  - destruct n as [|n]; [lia|]. change (2 * 0)%nat with 0%nat; cbn [repeat app difficulty_loop]. rewrite H. destruct (seqb_spec [a; b] (B "00")) as [E|_]; [|reflexivity].
    injection E as -> ->. discriminate.
  - destruct n as [|n]; [lia|]. replace (2 * S k)%nat with (S (S (2 * k))) by lia. cbn [repeat app difficulty_loop]. change (seqb ["0"; "0"]%char (B "00")) with true. cbv iota. apply IH. lia.
Qed.
Print Assumptions C33_not_hex_reported.

(** What DoWork returns, for any number of threads and any interleaving: the tag written by some worker i at its first success k; the
    finished event's id has the target difficulty; the tag states the target. *)
Theorem C33_work_meets_target : forall (sha256 : str -> str), (forall s, length (sha256 s) = 32%nat) -> forall ev target threads s t,
  pow_reach sha256 ev target threads s -> p_answer s = Some (Found t) ->
  ev_pubkey ev <> [] /\ (exists nonce, t = [B "nonce"; dec_N nonce; dec_Z target] /\ (nonce < 2 ^ 64)%N) /\
  exists z, difficulty (get_id sha256 (with_tag ev t)) = Ok z /\ leading_zeros (sha256 (serialize (with_tag ev t))) z /\ target <= z.
Proof.
  intros sha256 Hs ev target threads s t R A. destruct (pow_invariant _ _ _ _ _ R) as (_ & _ & I). unfold answer_ok in I. rewrite A in I.
  destruct I as (_ & P & i & k & Hi & -> & G & _). split; [exact P|]. split.
  { exists (nonce_of threads i k). split; [reflexivity|]. unfold nonce_of. apply N.mod_lt. discriminate. }
  set (e := with_tag ev (work_tag target threads i k)) in *. unfold get_id.
  destruct (C33_difficulty_counts (hex_encode (sha256 (serialize e))) [] (sha256 (serialize e))) as (z & E & L).
  { apply hex_decode_encode. }
  { rewrite hex_encode_length, Hs. reflexivity. }
  rewrite app_nil_r in E. exists z. split; [exact E|]. split; [exact L|].
  unfold good in G. fold e in G. apply Z.leb_le in G.
  assert (S := difficulty_bytes_spec (sha256 (serialize e))). cbv zeta in S. rewrite Hs in S. change (8 * Z.of_nat 32) with 256 in S.
  rewrite (leading_zeros_unique _ z (difficulty_bytes (sha256 (serialize e))) L); [exact G|]. destruct S as (S1 & S2 & S3).
  split; [exact S1|]. split; [exact S2|]. intro H. replace (255 - difficulty_bytes (sha256 (serialize e))) with (256 - difficulty_bytes (sha256 (serialize e)) - 1) by lia. apply S3, H.
Qed.
Print Assumptions C33_work_meets_target.
(** CommittedDifficulty of the finished event is the target when the event had no nonce tag before. *)
Definition finished (sha256 : str -> str) (e : event) : event :=
  mkEvent (get_id sha256 e) (ev_pubkey e) (ev_created_at e) (ev_kind e) (ev_tags e) (ev_content e) (ev_sig e).
Theorem C33_work_commits_partial : forall (sha256 : str -> str), (forall s, length (sha256 s) = 32%nat) -> forall ev target threads s t,
  pow_reach sha256 ev target threads s -> p_answer s = Some (Found t) -> min_int64 <= target <= max_int64 ->
  (forall u, In u (ev_tags ev) -> forall v rest, u <> B "nonce" :: v :: rest) ->
  committed_difficulty (finished sha256 (with_tag ev t)) = Ok target.
Proof.
  intros sha256 Hs ev target threads s t R A Ht Hn. destruct (C33_work_meets_target sha256 Hs ev target threads s t R A) as (_ & (nonce & Et & _) & z & Ez & _ & Hz).
  unfold committed_difficulty. cbn [finished ev_tags ev_id with_tag].
  assert (F : find_tag (ev_tags ev ++ [t]) (B "nonce") = Some t).
  { clear - Hn Et. subst t. induction (ev_tags ev) as [|u ts IH]; [reflexivity|]. cbn [app find_tag].
    assert (K := Hn u (or_introl eq_refl)). destruct u as [|a [|b u]]; try (apply IH; intros; apply Hn; right; assumption).
    destruct (seqb_spec a (B "nonce")) as [->|]; [exfalso; exact (K b u eq_refl)|]. apply IH. intros. apply Hn. right. assumption. }
  rewrite F. rewrite Et at 1. cbn [nth_error].
  change (get_id sha256 (mkEvent (ev_id ev) (ev_pubkey ev) (ev_created_at ev) (ev_kind ev) (ev_tags ev ++ [t]) (ev_content ev) (ev_sig ev))) with (get_id sha256 (with_tag ev t)).
  rewrite Ez. cbn [obind]. rewrite atoi_dec by exact Ht. destruct (Z.leb_spec target z); [reflexivity|lia].
Qed.
Print Assumptions C33_work_commits_partial.
(** No nonce tag, one without a target and one whose target is no number commit to nothing. *)
Theorem C33_uncommitted e : (find_tag (ev_tags e) (B "nonce") = None \/ exists t, find_tag (ev_tags e) (B "nonce") = Some t /\ (length t <= 2)%nat) -> committed_difficulty e = Ok 0.
Proof.
  intros [H|(t & H & Q)]; unfold committed_difficulty; rewrite H; [reflexivity|]. rewrite (proj2 (nth_error_None t 2) Q). reflexivity.
Qed.
Theorem C33_empty_target e t r z : find_tag (ev_tags e) (B "nonce") = Some (t :: r) -> nth_error (t :: r) 2 = Some [] -> difficulty (ev_id e) = Ok z -> committed_difficulty e = Ok 0.
Proof. intros H Q D. unfold committed_difficulty. rewrite H, Q, D. cbn [obind atoi_value]. destruct (0 <=? z); reflexivity. Qed.
Print Assumptions C33_uncommitted.
Print Assumptions C33_empty_target.
(** With an earlier nonce tag the work is done but not counted: the first tag is read. *)
Definition zero_sha (s : str) : str := repeat (byte_of 0) 32.
Definition old_nonce : event := mkEvent [] (B "pk") 0 1 [[B "nonce"; B "7"; B "300"]] (B "hi") [].
Theorem C33_old_nonce_tag_refuted : exists s t, pow_reach zero_sha old_nonce 5 1 s /\ p_answer s = Some (Found t) /\
  committed_difficulty (finished zero_sha (with_tag old_nonce t)) = Ok 0.
Proof.
  exists (mkPow [Stopped] true (Some (Found (work_tag 5 1 0 0)))), (work_tag 5 1 0 0). split; [|split; [reflexivity|vm_compute; reflexivity]].
  apply ReachStep with (mkPow [Offering 0] false None); [|exact (StepSend zero_sha old_nonce 5 1 [Offering 0] false 0 0 eq_refl)].
  apply ReachStep with (mkPow [Trying 0] false None); [|exact (StepHit zero_sha old_nonce 5 1 [Trying 0] false None 0 0 eq_refl eq_refl)].
  exact (ReachInit zero_sha old_nonce 5 1).
Qed.
Print Assumptions C33_old_nonce_tag_refuted.
(** No worker is left behind: once the context is cancelled or an answer was given, every worker can reach its return. *)
Theorem C33_workers_can_stop : forall sha256 ev target threads s, pow_reach sha256 ev target threads s ->
  p_cancelled s = true \/ p_answer s <> None ->
  exists s', steps sha256 ev target threads s s' /\ p_answer s' = p_answer s /\ (forall i w, nth_error (p_workers s') i = Some w -> w = Stopped).
Proof.
  intros sha256 ev target threads s R H. destruct (pow_invariant _ _ _ _ _ R) as (_ & _ & I). destruct s as [ws c a]. cbn [p_cancelled p_answer p_workers] in *.
  assert (K : c = true \/ ws = []).
  { destruct H as [H|H]; [left; exact H|]. unfold answer_ok in I. cbn in I. destruct a as [[t| |]|]; [left; apply I|left; apply I|right; apply I|congruence]. }
  destruct K as [->| ->].
  - destruct (all_stop sha256 ev target threads ws a (length ws) (Nat.le_refl _)) as (ws' & S1 & _ & S3); [intros; lia|]. exists (mkPow ws' true a). auto.
  - exists (mkPow [] c a). split; [apply Steps0|]. split; [reflexivity|]. intros [|i] w E; discriminate.
Qed.
Print Assumptions C33_workers_can_stop.
(** The workers share out the nonces: no nonce is tried twice before the counters wrap, and every nonce is somebody's. *)
Theorem C33_nonces_disjoint threads i k j l : (i < threads)%nat -> (j < threads)%nat ->
  (N.of_nat i + N.of_nat k * N.of_nat threads < 2 ^ 64)%N -> (N.of_nat j + N.of_nat l * N.of_nat threads < 2 ^ 64)%N ->
  nonce_of threads i k = nonce_of threads j l -> i = j /\ k = l.
Proof.
  intros Hi Hj B1 B2. unfold nonce_of. rewrite !N.mod_small by assumption. intro E.
  assert (E' : (i + k * threads = j + l * threads)%nat) by lia.
  assert (M : (i = j)%nat). { rewrite <- (Nat.mod_small i threads), <- (Nat.mod_small j threads) by assumption. rewrite <- (Nat.mod_add i k), <- (Nat.mod_add j l), E' by lia. reflexivity. }
  split; [exact M|]. subst j. nia.
Qed.
Theorem C33_nonces_cover threads n : (0 < threads)%nat -> (n < 2 ^ 64)%N -> exists i k, (i < threads)%nat /\ nonce_of threads i k = n.
Proof.
  intros Ht Hn. exists (N.to_nat (n mod N.of_nat threads)), (N.to_nat (n / N.of_nat threads)). assert (L := N.mod_lt n (N.of_nat threads)). assert (D := N.div_mod n (N.of_nat threads)).
  split; [lia|]. unfold nonce_of. rewrite !N2Nat.id. rewrite N.mod_small; [lia|]. lia.
Qed.
Print Assumptions C33_nonces_disjoint.
Print Assumptions C33_nonces_cover.
(** If some nonce works, there is a run that finds it. *)
Theorem C33_work_can_finish : forall sha256 ev target threads i k, ev_pubkey ev <> [] -> (i < threads)%nat -> first_good sha256 ev target threads i k ->
  exists s, pow_reach sha256 ev target threads s /\ p_answer s = Some (Found (work_tag target threads i k)).
Proof.
  intros sha256 ev target threads i k Hp Hi (G & F).
  assert (E0 : pow_init ev threads = mkPow (repeat (Trying 0) threads) false None) by (unfold pow_init; destruct (ev_pubkey ev); [congruence|reflexivity]).
  set (ws := repeat (Trying 0) threads) in *. assert (L : (i < length ws)%nat) by (unfold ws; rewrite repeat_length; exact Hi).
  assert (N : nth_error ws i = Some (Trying 0)).
  { destruct (nth_error ws i) as [w|] eqn:E; [|apply nth_error_None in E; lia]. apply nth_error_rep in E. congruence. }
  assert (RS : forall s s', steps sha256 ev target threads s s' -> pow_reach sha256 ev target threads s -> pow_reach sha256 ev target threads s').
  { induction 1 as [|a b c St _ IH]; intro K; [exact K|]. apply IH. eapply ReachStep; eassumption. }
  assert (R1 := RS _ _ (run_worker sha256 ev target threads ws i L N k F)). rewrite <- E0 in R1. specialize (R1 (ReachInit _ _ _ _)).
  eexists. split.
  - eapply ReachStep; [eapply ReachStep; [exact R1|]|].
    + apply StepHit with (i := i) (k := k); [apply nth_set_same, L|exact G].
    + rewrite set_set. apply StepSend with (i := i) (k := k). apply nth_set_same, L.
  - reflexivity.
Qed.
Print Assumptions C33_work_can_finish.
Example C33_no_pubkey : p_answer (pow_init (mkEvent [] [] 0 1 [] [] []) 4) = Some NoPubKey.
Proof. reflexivity. Qed.
