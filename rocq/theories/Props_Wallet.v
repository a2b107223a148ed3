(** C69, C70: the wallet's money and the amounts of invoices. *)
From Verif Require Import Base WalletModel WalletProofs.
Import ListNotations.
Open Scope Z_scope.

(** * C69 *)
(** A wallet with less than 2^63 units and prices that fit. *)
Definition sane (M : mints) (ts : list token) : Prop :=
  positive_proofs (all_proofs ts) /\ worth ts < 9223372036854775808 /\
  forall mint kss, m_keysets M mint = Some kss -> fees_fit kss (all_proofs ts).

Lemma sane_held M ts a b m kss : sane M ts -> ts = a ++ b -> m_keysets M m = Some kss ->
  0 <= total (held m a) < 9223372036854775808 /\ amount_of (held m a) = total (held m a) /\ fees_fit kss (held m a).
Proof.
  intros (P & W & F) -> K. rewrite all_proofs_app in P. apply positive_app in P. destruct P as [P Pb]. rewrite worth_app in W. pose proof (held_le m a P) as L.
  assert (0 <= worth b) by (rewrite worth_total; apply total_positive; exact Pb). assert (T : 0 <= total (held m a) < 9223372036854775808) by lia. split; [exact T|]. split; [apply amount_of_total; lia|].
  destruct (F _ _ K) as [FP FL]. split; [exact FP|]. rewrite all_proofs_app, prices_app in FL. pose proof (prices_positive kss (all_proofs b) FP). pose proof (held_prices kss m a FP). lia.
Qed.

(** The chosen proofs are all those of the first tokens at one mint, and cover the amount and the fee. *)
Theorem C69_selection M ts amount specific exclude c fee : sane M ts -> 0 <= amount < 18446744073709551616 -> get_proofs M ts amount specific exclude = Ok (c, fee) ->
  exists a b kss, ts = a ++ b /\ m_keysets M (ch_mint c) = Some kss /\ allowed specific exclude (ch_mint c) /\
    ch_proofs c = held (ch_mint c) a /\ (forall j, In j (ch_idx c) <-> (j < length a)%nat /\ exists t, nth_error ts j = Some t /\ tk_mint t = ch_mint c) /\
    fee_is kss (ch_proofs c) fee /\ amount + fee <= total (ch_proofs c).
Proof.
  intros S A H. pose proof (choose_spec M amount specific exclude ts [] []) as C. unfold get_proofs in H. cbn [length app] in C. rewrite H in C. destruct C as (a & t & b & kss & E & Al & K & -> & F & L1 & L2).
  { intros m _ t []. } cbn [ch_mint ch_proofs ch_idx] in *. exists (a ++ [t]), b, kss. assert (E' : ts = (a ++ [t]) ++ b) by (rewrite <- app_assoc; exact E).
  destruct (sane_held M ts (a ++ [t]) b (tk_mint t) kss S E' K) as (T & Q & FF). destruct (calc_fee_value _ _ _ FF F) as [V FB].
  rewrite Q in L1, L2. rewrite w64_small in L2 by lia. split; [exact E'|]. split; [exact K|]. split; [exact Al|]. split; [reflexivity|]. split; [|split; [exact V|exact L2]].
  intro j. rewrite places_in, Nat.sub_0_r. split.
  - intros [_ (u & N & Eu)]. pose proof (nth_error_Some (a ++ [t]) j) as NS. rewrite N in NS. assert (J : (j < length (a ++ [t]))%nat) by (apply NS; discriminate). split; [exact J|]. exists u. rewrite E', nth_error_app1 by exact J. auto.
  - intros [J (u & N & Eu)]. split; [lia|]. exists u. rewrite E', nth_error_app1 in N by exact J. auto.
Qed.

(** It is refused only when a mint does not answer or no allowed mint holds enough. *)
Theorem C69_selection_refused M ts amount specific exclude : sane M ts -> 0 <= amount < 9223372036854775808 -> get_proofs M ts amount specific exclude = Err ->
  (exists t, In t ts /\ allowed specific exclude (tk_mint t) /\ m_keysets M (tk_mint t) = None) \/
  (forall m kss fee, allowed specific exclude m -> m_keysets M m = Some kss -> (exists t, In t ts /\ tk_mint t = m) -> known_keysets kss (held m ts) -> fee_is kss (held m ts) fee -> total (held m ts) < amount + fee).
Proof.
  intros S A H. pose proof (choose_spec M amount specific exclude ts [] []) as C. unfold get_proofs in H. cbn [length app] in C. rewrite H in C. destruct C as [C|C]; [intros m _ t []|left; exact C|right].
  intros m kss fee Al K (t & I & <-) KK V. destruct (C t I Al) as (kss' & K' & NC). rewrite K in K'. assert (kss = kss') as <- by congruence.
  assert (E : ts = ts ++ []) by (rewrite app_nil_r; reflexivity). destruct (sane_held M ts ts [] (tk_mint t) kss S E K) as (T & Q & FF). apply calc_fee_known in KK. destruct KK as [z Z0]. destruct (calc_fee_value _ _ _ FF Z0) as [V' B'].
  pose proof (fee_unique _ _ _ _ V V') as ->. destruct (Z.lt_ge_cases (total (held (tk_mint t) ts)) (amount + z)) as [|G]; [assumption|]. exfalso. apply NC. exists z. rewrite Q, w64_small by lia. repeat split; [exact Z0|lia|lia].
Qed.

(** It panics only over a proof whose keyset the mint no longer lists. *)
Theorem C69_selection_panic M ts amount specific exclude : get_proofs M ts amount specific exclude = Panic ->
  exists t kss, In t ts /\ allowed specific exclude (tk_mint t) /\ m_keysets M (tk_mint t) = Some kss /\ ~ known_keysets kss (held (tk_mint t) ts).
Proof.
  intro H. pose proof (choose_spec M amount specific exclude ts [] []) as C. unfold get_proofs in H. cbn [length app] in C. rewrite H in C. apply C. intros m _ t [].
Qed.

(** Sending: the proofs handed out are worth the amount, the history says amount and fee, and what was spent but for the change leaves the wallet
    — when there is change. When there is none the spent tokens stay. *)
Theorem C69_send_partial M known ts amount specific p2pk id s : sane M ts -> signs_as_asked M -> 0 <= amount < 18446744073709551616 -> send M known ts amount specific p2pk id = Ok s ->
  exists a b kss fee, ts = a ++ b /\ m_keysets M (se_mint s) = Some kss /\ allowed specific [] (se_mint s) /\ fee_is kss (held (se_mint s) a) fee /\
  total (se_proofs s) = amount /\ se_history s = amount + fee /\
  se_deleted s = ids_of (filter (fun t => seqb (tk_mint t) (se_mint s)) a) /\
  ((exists t, se_change s = Some t /\ tk_mint t = se_mint s /\ tk_event t = id /\ id <> None /\ total (tk_proofs t) = total (held (se_mint s) a) - amount - fee /\ tk_proofs t <> [] /\
      se_tokens s = others (se_mint s) a ++ b ++ [t] /\ worth ts = worth (se_tokens s) + amount + fee) \/
   (se_change s = None /\ total (held (se_mint s) a) = amount + fee /\ se_tokens s = ts)).
Proof.
  intros S HS A H. unfold send in H. destruct (get_proofs M ts amount specific []) as [[c fee]| |] eqn:G; try discriminate. cbn [obind fst snd] in H.
  destruct (_ && negb _); [discriminate|]. destruct (swap_proofs _ _ _ _ _ _ _) as [[pr ch]| |] eqn:W; try discriminate. cbn [obind fst snd] in H.
  pose proof (choose_spec M amount specific [] ts [] []) as C. cbn [length app] in C. unfold get_proofs in G. rewrite G in C. destruct C as (a & t & b & kss & E & Al & K & -> & F & L1 & L2). { intros m _ t []. }
  cbn [ch_mint ch_idx ch_proofs ch_keysets] in *. assert (E' : ts = (a ++ [t]) ++ b) by (rewrite <- app_assoc; exact E).
  destruct (sane_held M ts (a ++ [t]) b (tk_mint t) kss S E' K) as (T & Q & FF). destruct (calc_fee_value _ _ _ FF F) as [V FB]. rewrite Q in L1, L2. rewrite w64_small in L2 by lia.
  apply (swap_ok _ _ _ _ _ _ _ _ _ HS) in W. destruct W as (kss' & out & K' & SA & _ & P1 & P2 & _). rewrite K in K'. assert (kss = kss') as <- by congruence. apply split_ok in SA. destruct SA as (fee' & F' & SA & _). assert (fee' = fee) as -> by congruence. rewrite Q in SA.
  assert (TP : total pr = amount /\ total ch = total (held (tk_mint t) (a ++ [t])) - amount - fee).
  { rewrite !total_sum, P1, P2. destruct SA as [(L & -> & ->)|(L & -> & ->)].
    - rewrite w64_small by lia. rewrite !amount_split_sum by lia. rewrite <- total_sum. lia.
    - cbn [map sum fold_right]. rewrite w64_small by lia. rewrite amount_split_sum by lia. rewrite <- total_sum. lia. }
  destruct TP as [TP TC]. exists (a ++ [t]), b, kss, fee. destruct (save_change _ _ _ _ _) as [r| |] eqn:SC; try discriminate. cbn [obind] in H. assert (s = mkSent pr (tk_mint t) (fst (fst r)) (w64 (amount_of (held (tk_mint t) (a ++ [t])) - amount_of ch)) (snd (fst r)) (snd r)) as -> by congruence. cbn [se_mint se_proofs se_history se_deleted se_change se_tokens].
  assert (CH : amount_of ch = total ch) by (apply amount_of_total; lia). rewrite CH, Q, TC, w64_small by lia. split; [exact E'|]. split; [exact K|]. split; [exact Al|]. split; [exact V|]. split; [exact TP|]. split; [lia|].
  assert (U : used_ids 0 (places (tk_mint t) 0 (a ++ [t])) ts = ids_of (filter (fun u => seqb (tk_mint u) (tk_mint t)) (a ++ [t]))). { rewrite E'. exact (used_places (tk_mint t) 0 [] (a ++ [t]) b (fun j (F : In j []) => match F with end)). }
  assert (N : unused 0 (places (tk_mint t) 0 (a ++ [t])) ts = others (tk_mint t) (a ++ [t]) ++ b). { rewrite E'. exact (unused_places (tk_mint t) 0 [] (a ++ [t]) b (fun j (F : In j []) => match F with end)). }
  unfold save_change in SC. rewrite U, N in SC. destruct ch as [|p0 ch0].
  - assert (r = (ts, ids_of (filter (fun u => seqb (tk_mint u) (tk_mint t)) (a ++ [t])), None)) as -> by congruence. cbn [fst snd]. split; [reflexivity|]. right. split; [reflexivity|]. split; [|reflexivity]. cbn [total fold_right] in TC. lia.
  - destruct id as [id|]; [|discriminate]. match type of SC with Ok ?x = Ok _ => assert (r = x) as -> by congruence end. cbn [fst snd]. split; [reflexivity|]. left. eexists. split; [reflexivity|]. cbn [tk_mint tk_event tk_proofs].
    repeat split; try discriminate; try exact TC. { rewrite <- app_assoc. reflexivity. }
    rewrite !worth_app. rewrite E', worth_app, (worth_others (tk_mint t) (a ++ [t])). cbn [worth fold_right tk_proofs]. rewrite TC. lia.
Qed.

(** A mint that keeps its word: it has keys for all powers of two and swaps free proofs for outputs worth as much less the fee. *)
Definition willing (M : mints) (mint : str) : Prop :=
  (exists ks has, m_active M mint = Some (ks, has) /\ forall k, 0 <= k < 64 -> has (2 ^ k) = true) /\
  forall kss ps outs fee, m_keysets M mint = Some kss -> Forall (fun p => pr_lock p = Free) ps -> fee_is kss ps fee -> total ps = sum (map o_amount outs) + fee ->
    exists sigs, m_swap M mint ps None outs = Some sigs /\ Forall (fun s => sg_good s = true) sigs.

Lemma construct_total has outs sigs : (forall k, 0 <= k < 64 -> has (2 ^ k) = true) -> Forall (fun s => sg_good s = true) sigs -> map sg_amount sigs = map o_amount outs -> (forall o, In o outs -> exists k, 0 <= k < 64 /\ o_amount o = 2 ^ k) ->
  exists ps, construct has outs sigs = Ok ps.
Proof.
  intros K. revert outs. induction sigs as [|s r IH]; intros outs G Q P; cbn [construct]; [eauto|]. destruct outs as [|o outs]; [discriminate|]. cbn [map] in Q. injection Q as Q1 Q2. inversion G; subst.
  destruct (P o (or_introl eq_refl)) as (k & B1 & E1). rewrite Q1, E1, K by exact B1. cbn [negb]. rewrite H1. cbn [negb]. destruct (IH outs H2 Q2) as [ps ->]. { intros o' I. apply P. right. exact I. } cbn. eauto.
Qed.

(** Sending out of free proofs succeeds whenever proofs were found and the mint keeps its word. *)
Theorem C69_send_succeeds M known ts amount specific id c fee ids : sane M ts -> signs_as_asked M -> 0 <= amount < 18446744073709551616 ->
  get_proofs M ts amount specific [] = Ok (c, fee) -> willing M (ch_mint c) -> Forall (fun p => pr_lock p = Free) (all_proofs ts) ->
  other_ids M known (ch_mint c) = Some ids -> (forall kss, m_keysets M (ch_mint c) = Some kss -> collisions M ids kss = false) ->
  exists s, send M known ts amount specific None (Some id) = Ok s.
Proof.
  intros S HS A G (Act & Wi) Fr O Co. pose proof G as G'. apply (C69_selection M ts amount specific [] c fee S A) in G'. destruct G' as (a & b & kss & E & K & Al & P & _ & V & L).
  destruct (sane_held M ts a b (ch_mint c) kss S E K) as (T & Q & FF). rewrite <- P in T, Q, FF.
  assert (F : calc_fee (ch_proofs c) kss = Ok fee).
  { pose proof (choose_spec M amount specific [] ts [] []) as C. cbn [length app] in C. unfold get_proofs in G. rewrite G in C. destruct C as (a' & t & b' & kss' & _ & _ & K' & -> & F & _). { intros m _ t []. } cbn in *. congruence. }
  destruct (calc_fee_value _ _ _ FF F) as [_ FB]. unfold send. rewrite G. cbn [obind fst snd andb]. unfold swap_proofs. rewrite O, K, (Co _ K). destruct Act as (ks & has & -> & Ha).
  assert (Frc : Forall (fun p => pr_lock p = Free) (ch_proofs c)). { rewrite P. subst ts. rewrite all_proofs_app in Fr. apply Forall_app in Fr. destruct Fr as [Fr _]. apply Forall_forall. intros p I. unfold held in I. apply in_flat_map in I. destruct I as (t & I & J). apply filter_In in I. apply (proj1 (Forall_forall _ _) Fr). apply in_flat_map. exists t. split; [apply I|exact J]. }
  unfold split_amounts. rewrite F, Q. cbn [obind].
  set (outs := fun x => map (fun y => mkO y Free) (amount_split x)).
  assert (MAIN : forall x y, 0 <= x < 18446744073709551616 -> 0 <= y < 18446744073709551616 -> x + y + fee = total (ch_proofs c) ->
     exists p q, (match m_swap M (ch_mint c) (ch_proofs c) None (outs x ++ outs y) with
       | None => Err
       | Some sigs => if Nat.ltb (length sigs) (length (outs x)) then Panic else obind (construct has (outs x) (firstn (length (outs x)) sigs)) (fun principal => obind (construct has (outs y) (skipn (length (outs x)) sigs)) (fun change => Ok (principal, change)))
       end) = Ok (p, q)).
  { intros x y X Y SUM. destruct (Wi kss (ch_proofs c) (outs x ++ outs y) fee K Frc V) as (sigs & SW & GD).
    { rewrite map_app, sum_app. unfold outs. rewrite !map_o_amount, !amount_split_sum by assumption. lia. }
    rewrite SW. pose proof (HS _ _ _ _ _ SW) as MA. assert (LL : length sigs = (length (outs x) + length (outs y))%nat) by (rewrite <- (map_length sg_amount), MA, map_length, app_length; reflexivity).
    destruct (Nat.ltb_spec (length sigs) (length (outs x))); [lia|]. rewrite <- (firstn_skipn (length (outs x)) sigs) in GD. apply Forall_app in GD. destruct GD as [G1 G2].
    assert (M1 : map sg_amount (firstn (length (outs x)) sigs) = map o_amount (outs x)). { rewrite <- firstn_map, MA, map_app, firstn_app, map_length, Nat.sub_diag, firstn_O, app_nil_r. rewrite <- (map_length o_amount (outs x)). apply firstn_all. }
    assert (M2 : map sg_amount (skipn (length (outs x)) sigs) = map o_amount (outs y)). { rewrite <- skipn_map, MA, map_app, skipn_app, map_length, Nat.sub_diag. rewrite <- (map_length o_amount (outs x)), skipn_all. reflexivity. }
    assert (PW : forall z o, In o (outs z) -> exists k, 0 <= k < 64 /\ o_amount o = 2 ^ k). { intros z o I. unfold outs in I. apply in_map_iff in I. destruct I as (w & <- & I). apply amount_split_power in I. exact I. }
    destruct (construct_total has _ _ Ha G1 M1 (PW x)) as [p Ep]. destruct (construct_total has _ _ Ha G2 M2 (PW y)) as [q Eq]. exists p, q. rewrite Ep. cbn [obind]. rewrite Eq. reflexivity. }
  assert (SAVE : forall p q, exists s, obind (Ok (p, q)) (fun pc : list proof * list proof => obind (save_change ts (ch_mint c) (snd pc) (ch_idx c) (Some id)) (fun r => Ok (mkSent (fst pc) (ch_mint c) (fst (fst r)) (w64 (total (ch_proofs c) - amount_of (snd pc))) (snd (fst r)) (snd r)))) = Ok s).
  { intros p q. cbn [obind fst snd]. unfold save_change. destruct q; cbn [obind]; eauto. }
  destruct (Z.ltb_spec amount (total (ch_proofs c))) as [L1|L1].
  - cbn [obind fst snd]. rewrite w64_small by lia. destruct (MAIN amount (total (ch_proofs c) - amount - fee)) as (p & q & M0); [lia|lia|lia|]. unfold outs in M0. rewrite M0. apply SAVE.
  - destruct (Z.eqb_spec amount (total (ch_proofs c))) as [E1|N1]; [|lia]. cbn [obind fst snd]. rewrite w64_small by lia. destruct (MAIN (amount - fee) 0) as (p & q & M0); [lia|lia|lia|]. unfold outs in M0. rewrite M0. apply SAVE.
Qed.

(** Receiving at the mint the proofs come from: the wallet gains what came in less the fee. *)
Definition balances (M : mints) : Prop := forall mint kss ps signer outs sigs fee, m_swap M mint ps signer outs = Some sigs -> m_keysets M mint = Some kss -> fee_is kss ps fee -> total ps = sum (map o_amount outs) + fee.
Theorem C69_receive M known key ts ps source dest id ts' shown : signs_as_asked M -> balances M -> positive_proofs ps -> total ps < 18446744073709551616 ->
  (forall kss, m_keysets M source = Some kss -> fees_fit kss ps) -> ~ In source dest -> receive M known key ts ps source dest id = Ok (ts', shown) ->
  exists kss fee t, m_keysets M source = Some kss /\ fee_is kss ps fee /\ ts' = ts ++ [t] /\ tk_mint t = source /\ tk_event t = id /\ total (tk_proofs t) = total ps - fee /\
    shown = total ps - fee /\ worth ts' = worth ts + total ps - fee /\ Forall (fun p => pr_lock p = Free) (tk_proofs t).
Proof.
  intros HS HB P W FF ND H. unfold receive in H. destruct (sign_inputs key ps None) as [signer| |]; try discriminate. cbn [obind] in H. destruct (m_keysets M source) as [kss|] eqn:K; [|discriminate].
  destruct (swap_proofs _ _ _ _ _ _ _) as [[pr ch]| |] eqn:SW; try discriminate. cbn [obind fst snd] in H. destruct (existsb (seqb source) dest) eqn:D; [apply existsb_mem in D; contradiction|]. cbn [obind fst snd] in H. destruct id as [id|]; [|discriminate].
  match type of H with Ok ?x = Ok _ => assert (x = (ts', shown)) as X by congruence end. assert (ts' = ts ++ [mkT source pr [] (Some id)] /\ shown = amount_of pr) as [-> ->] by (split; congruence). clear H X.
  apply (swap_ok _ _ _ _ _ _ _ _ _ HS) in SW. destruct SW as (kss' & out & K' & SA & (sigs & MS) & P1 & P2 & P3 & _). assert (kss' = kss) as -> by congruence. apply split_ok in SA. destruct SA as (fee & F & SA & LK).
  destruct (calc_fee_value _ _ _ (FF _ eq_refl) F) as [V FB]. pose proof (total_positive ps P) as TP. rewrite amount_of_total in SA by lia.
  pose proof (HB _ _ _ _ _ _ _ MS K V) as BAL. rewrite map_app, sum_app in BAL. destruct SA as [[L _]|(_ & A1 & A2)]; [lia|]. rewrite A2 in BAL. cbn [map sum fold_right] in BAL.
  assert (T : total pr = total ps - fee) by (rewrite total_sum, P1; lia). assert (R : 0 <= sum (map o_amount (fst out))). { rewrite A1. pose proof (w64_range (total ps - fee)). rewrite amount_split_sum by lia. lia. }
  exists kss, fee, (mkT source pr [] (Some id)). cbn [tk_mint tk_event tk_proofs]. rewrite amount_of_total by lia. rewrite worth_app. cbn [worth fold_right tk_proofs]. fold (worth ts).
  repeat split; try assumption; try lia; try apply V. apply Forall_forall. intros p I. apply (in_map pr_lock) in I. rewrite P3 in I. apply in_map_iff in I. destruct I as (o & <- & I). apply LK. apply in_or_app. left. exact I.
Qed.

(** When the change is locked: it carries the lock of what was sent, so it belongs to the recipient and not to the wallet. *)
Theorem C69_change_locked_refuted M known ts amount specific k id s t : signs_as_asked M -> send M known ts amount specific (Some k) id = Ok s -> se_change s = Some t ->
  Forall (fun p => pr_lock p = P2pk k) (se_proofs s) /\ tk_proofs t <> [] /\ Forall (fun p => pr_lock p = P2pk k) (tk_proofs t).
Proof.
  intros HS H C. unfold send in H. destruct (get_proofs M ts amount specific []) as [[c fee]| |]; try discriminate. cbn [obind fst snd] in H. destruct (_ && negb _); [discriminate|].
  destruct (swap_proofs _ _ _ _ _ _ _) as [[pr ch]| |] eqn:W; try discriminate. cbn [obind fst snd] in H. apply (swap_ok _ _ _ _ _ _ _ _ _ HS) in W. destruct W as (kss & out & _ & SA & _ & _ & _ & P1 & P2). apply split_ok in SA. destruct SA as (_ & _ & _ & LK).
  destruct (save_change _ _ _ _ _) as [r| |] eqn:SC; try discriminate. cbn [obind] in H. match type of H with Ok ?x = Ok _ => assert (s = x) as -> by congruence end. cbn [se_change se_proofs] in *.
  assert (G : forall l outs, map pr_lock l = map o_lock outs -> (forall o, In o outs -> o_lock o = P2pk k) -> Forall (fun p => pr_lock p = P2pk k) l). { intros l outs E L. apply Forall_forall. intros p I. apply (in_map pr_lock) in I. rewrite E in I. apply in_map_iff in I. destruct I as (o & <- & I). apply L. exact I. }
  unfold save_change in SC. destruct ch as [|p0 ch0]. { match type of SC with Ok ?x = Ok _ => assert (r = x) as -> by congruence end. discriminate. } destruct id as [id|]; [|discriminate]. match type of SC with Ok ?x = Ok _ => assert (r = x) as -> by congruence end. cbn [snd] in C. injection C as <-. cbn [tk_proofs].
  split; [|split; [discriminate|]].
  - apply (G pr (fst out) P1). intros o I. apply LK, in_or_app. left. exact I.
  - apply (G (p0 :: ch0) (snd out) P2). intros o I. apply LK, in_or_app. right. exact I.
Qed.

(** Money sent to a mint the wallet does not want stays there: the destinations are looked at only when the source is among them. *)
Theorem C69_destination_refuted M known key ts ps source dest id ts' shown : ~ In source dest -> receive M known key ts ps source dest id = Ok (ts', shown) -> exists t, ts' = ts ++ [t] /\ tk_mint t = source.
Proof.
  intros ND H. unfold receive in H. destruct (sign_inputs key ps None) as [signer| |]; try discriminate. cbn [obind] in H. destruct (m_keysets M source) as [kss|]; [|discriminate].
  destruct (swap_proofs _ _ _ _ _ _ _) as [[pr ch]| |]; try discriminate. cbn [obind fst snd] in H. destruct (existsb (seqb source) dest) eqn:D; [apply existsb_mem in D; contradiction|]. cbn [obind fst snd] in H. destruct id as [id|]; [|discriminate].
  match type of H with Ok ?x = Ok _ => assert (x = (ts', shown)) as X by congruence end. exists (mkT source pr [] (Some id)). split; [congruence|reflexivity].
Qed.

(** Moving money between mints: with a fee to pay, the source is paid out but the target is asked for the fee too much, and refuses. *)
Definition mints_what_was_paid (M : mints) : Prop := forall to asked invoice outs sigs, m_mint_quote M to asked = Some invoice -> m_mint M to invoice outs = Some sigs -> sum (map o_amount outs) = asked.
Lemma melt_quotes_asked M f tot fee pct from to invoice amount asked : melt_quotes M f tot fee pct from to = inr (invoice, amount, asked) -> asked = w64 (amount - fee) /\ m_mint_quote M to asked = Some invoice /\ 0 <= amount < 18446744073709551616.
Proof.
  revert pct. induction f as [|f IH]; intros pct H; [discriminate|]. cbn [melt_quotes] in H. destruct (m_mint_quote M to (w64 (w64 (tot * pct) / 100 - fee))) as [i|] eqn:Q; [|discriminate]. destruct (m_melt_quote M from i) as [[x reserve]|]; [|discriminate].
  destruct (tot <? _); [exact (IH _ H)|]. pose proof (w64_range (tot * pct)). assert (invoice = i /\ amount = w64 (tot * pct) / 100 /\ asked = w64 (w64 (tot * pct) / 100 - fee)) as (-> & -> & ->) by (repeat split; congruence). repeat split; try assumption; lia.
Qed.
Theorem C69_lightning_swap_refuted M ps from kss to fee : mints_what_was_paid M -> calc_fee ps kss = Ok fee -> 0 < fee < 18446744073709551616 -> forall q, melt_mint M ps from kss to <> Ok (inr q).
Proof.
  intros HM F FB q H. unfold melt_mint in H. rewrite F in H. cbn [obind] in H. destruct (melt_quotes M 10 (amount_of ps) fee 99 from to) as [st|[[invoice amount] asked]] eqn:MQ; [discriminate|].
  destruct (m_melt M from invoice ps []) as [[[|] ?]|]; try discriminate. apply melt_quotes_asked in MQ. destruct MQ as (-> & Q & AB). unfold redeem in H. destruct (m_active M to) as [[ks has]|]; [|discriminate].
  destruct (m_mint M to invoice (map (fun x => mkO x Free) (amount_split amount))) as [sigs|] eqn:MM; [|discriminate]. pose proof (HM _ _ _ _ _ Q MM) as E. rewrite map_o_amount, amount_split_sum in E by lia.
  unfold w64 in E. lia.
Qed.

(** ** A world to try it in: mint "m" with keysets k (free) and f (one unit each), mint "n" likewise; both honest. *)
Definition toy_fee (ps : list proof) : Z := (fold_right (fun p a => (if seqb (pr_ks p) (B "f") then 1000 else 0) + a) 0 ps + 999) / 1000.
Definition toy_sigs (outs : list output) : list signature := map (fun o => mkSig (o_amount o) (B "k") true) outs.
Definition is_pow (z : Z) : bool := existsb (fun k => z =? 2 ^ Z.of_nat k) (seq 0 64).
Definition toy_ok (signer : option str) (p : proof) : bool := match pr_lock p, signer with Free, _ => true | P2pk k, Some k' => seqb k k' | _, _ => false end.
(** the change after paying an invoice of 100 units at a lightning fee of 1: as many of the largest powers of two as there are outputs *)
Definition toy_change (ps : list proof) (outs : list output) : list signature := map (fun a => mkSig a (B "k") true) (firstn (length outs) (rev (amount_split (total ps - toy_fee ps - 101)))).
Definition toy : mints := mkMints
  (fun _ => Some [mkK (B "k") 0; mkK (B "f") 1000])
  (fun _ => Some (B "k", is_pow))
  (fun _ ps signer outs => if (total ps =? sum (map o_amount outs) + toy_fee ps) && forallb (toy_ok signer) ps then Some (toy_sigs outs) else None)
  (fun _ => Some (true, true))
  (fun _ _ => Some (100, 2))
  (fun _ _ ps outs => Some (true, toy_change ps outs))
  (fun _ amount => Some (dec_Z amount))
  (fun _ invoice outs => if seqb invoice (dec_Z (sum (map o_amount outs))) then Some (toy_sigs outs) else None)
  (fun _ _ => false).
Definition coin (a : Z) (ks : str) : proof := mkP a ks Free.
Definition purse : list token := [mkT (B "m") [coin 8 (B "k"); coin 4 (B "f")] [] (Some (B "t1")); mkT (B "n") [coin 64 (B "k")] [] (Some (B "t2")); mkT (B "m") [coin 16 (B "f")] [] (Some (B "t3"))].

Example send_toy : send toy [B "m"; B "n"] purse 20 (B "m") None (Some (B "t4")) =
  Ok (mkSent [coin 4 (B "k"); coin 16 (B "k")] (B "m") [mkT (B "n") [coin 64 (B "k")] [] (Some (B "t2")); mkT (B "m") [coin 2 (B "k"); coin 4 (B "k")] [] (Some (B "t4"))] 22 [B "t1"; B "t3"] (Some (mkT (B "m") [coin 2 (B "k"); coin 4 (B "k")] [] (Some (B "t4"))))).
Proof. vm_compute. reflexivity. Qed.
Lemma toy_signs : signs_as_asked toy.
Proof. intros mint ps signer outs sigs H. cbn [m_swap toy] in H. destruct (_ && _); [|discriminate]. injection H as <-. unfold toy_sigs. rewrite map_map. reflexivity. Qed.
Lemma toy_sane : sane toy purse.
Proof.
  split; [|split].
  - repeat constructor; cbn; lia.
  - vm_compute. reflexivity.
  - intros mint kss H. cbn in H. injection H as <-. split; [repeat constructor; cbn; lia|vm_compute; reflexivity].
Qed.
Lemma toy_prices ps : prices [mkK (B "k") 0; mkK (B "f") 1000] ps = fold_right (fun p a => (if seqb (pr_ks p) (B "f") then 1000 else 0) + a) 0 ps.
Proof.
  induction ps as [|p ps IH]; [reflexivity|]. unfold prices in *. cbn [map sum fold_right]. fold (sum (map (price [mkK (B "k") 0; mkK (B "f") 1000]) ps)). rewrite IH. f_equal. unfold price. cbn [find ks_id].
  destruct (seqb_spec (B "k") (pr_ks p)) as [<-|_]; [reflexivity|]. destruct (seqb_spec (B "f") (pr_ks p)) as [<-|N]; [reflexivity|]. destruct (seqb_spec (pr_ks p) (B "f")) as [E|]; [destruct (N (eq_sym E))|reflexivity].
Qed.
Lemma toy_fee_is mint kss ps fee : m_keysets toy mint = Some kss -> fee_is kss ps fee -> fee = toy_fee ps.
Proof. intros K V. cbn in K. injection K as <-. unfold fee_is in V. rewrite toy_prices in V. unfold toy_fee. lia. Qed.
Lemma toy_balances : balances toy.
Proof. intros mint kss ps signer outs sigs fee H K V. apply (toy_fee_is mint kss ps fee K) in V. subst fee. cbn [m_swap toy] in H. destruct (Z.eqb_spec (total ps) (sum (map o_amount outs) + toy_fee ps)); [assumption|discriminate]. Qed.
Lemma toy_willing mint : willing toy mint.
Proof.
  split.
  - exists (B "k"), is_pow. split; [reflexivity|]. intros k K. unfold is_pow. apply existsb_exists. exists (Z.to_nat k). split; [apply in_seq; lia|]. apply Z.eqb_eq. rewrite Z2Nat.id by lia. reflexivity.
  - intros kss ps outs fee K F V T. apply (toy_fee_is mint kss ps fee K) in V. subst fee. exists (toy_sigs outs). cbn [m_swap toy]. rewrite T, Z.eqb_refl. assert (forallb (toy_ok None) ps = true) as ->. { apply forallb_forall. intros p I. unfold toy_ok. rewrite (proj1 (Forall_forall _ _) F p I). reflexivity. }
    split; [reflexivity|]. unfold toy_sigs. apply Forall_forall. intros s I. apply in_map_iff in I. destruct I as (o & <- & _). reflexivity.
Qed.
Lemma toy_mints : mints_what_was_paid toy.
Proof.
  intros to asked invoice outs sigs Q H. cbn [m_mint_quote m_mint toy] in *. injection Q as <-. destruct (seqb_spec (dec_Z asked) (dec_Z (sum (map o_amount outs)))) as [E|]; [|discriminate]. symmetry. apply dec_Z_inj. exact E.
Qed.

(** The hypotheses of the theorems about sending hold in this world. *)
Example C69_send_applies : exists s, send toy [B "m"; B "n"] purse 20 (B "m") None (Some (B "t4")) = Ok s /\ sane toy purse /\ signs_as_asked toy /\ se_change s <> None /\ worth purse = 92 /\ worth (se_tokens s) = 70 /\ se_history s = 22.
Proof. eexists. split; [exact send_toy|]. split; [exact toy_sane|]. split; [exact toy_signs|]. split; [discriminate|]. repeat split. Qed.
Example C69_refused_applies : get_proofs toy purse 28 (B "m") [] = Err /\ total (held (B "m") purse) = 28 /\ calc_fee (held (B "m") purse) [mkK (B "k") 0; mkK (B "f") 1000] = Ok 2.
Proof. vm_compute. repeat split. Qed.
Example C69_receive_applies : exists ts', receive toy [B "m"] None purse [coin 32 (B "f"); coin 1 (B "k")] (B "m") [] (Some (B "t4")) = Ok (ts', 32) /\ worth ts' = 124.
Proof. eexists. split; vm_compute; reflexivity. Qed.
Example C69_panic_applies : get_proofs toy [mkT (B "m") [coin 8 (B "old")] [] None] 4 [] [] = Panic.
Proof. reflexivity. Qed.

(** Spending everything leaves the spent tokens in the wallet: 64 units are sent, and the balance stays. *)
Theorem C69_spent_tokens_stay_refuted : exists s, send toy [] purse 64 (B "n") None (Some (B "t4")) = Ok s /\ total (se_proofs s) = 64 /\ se_deleted s = [B "t2"] /\ se_tokens s = purse /\ balance (se_tokens s) = balance purse.
Proof. eexists. split; [vm_compute; reflexivity|]. repeat split. Qed.
(** Sending 20 units locked to someone locks the 6 units of change to them too; the wallet cannot spend those any more. *)
Example C69_change_locked_applies : exists s t s2, send toy [] purse 20 (B "m") (Some (B "them")) (Some (B "t4")) = Ok s /\ se_change s = Some t /\ total (tk_proofs t) = 6 /\ send toy [] (se_tokens s) 2 (B "m") None (Some (B "t5")) = Err /\
  send toy [] [mkT (B "m") [coin 2 (B "k"); coin 4 (B "k")] [] None] 2 (B "m") None (Some (B "t5")) = Ok s2.
Proof. eexists. eexists. eexists. split; [vm_compute; reflexivity|]. split; [reflexivity|]. split; [reflexivity|]. split; [vm_compute; reflexivity|vm_compute; reflexivity]. Qed.
(** The change token never names the tokens it replaces. *)
Theorem C69_change_del_refuted : exists s t, send toy [] purse 20 (B "m") None (Some (B "t4")) = Ok s /\ se_change s = Some t /\ se_deleted s = [B "t1"; B "t3"] /\ tk_deleted t = [].
Proof. eexists. eexists. split; [vm_compute; reflexivity|]. repeat split. Qed.
(** Money meant for the wallet's own mint stays at the source; asked to keep it at the source, the wallet sends it around. *)
Example C69_destination_applies : exists t, receive toy [] None [] [coin 128 (B "k")] (B "n") [B "m"] (Some (B "t4")) = Ok ([t], 128) /\ tk_mint t = B "n".
Proof. eexists. split; vm_compute; reflexivity. Qed.
Theorem C69_destination_inverted_refuted : exists t, receive toy [] None [] [coin 128 (B "k")] (B "n") [B "m"; B "n"] (Some (B "t4")) = Ok ([t], 126) /\ tk_mint t = B "m".
Proof. eexists. split; vm_compute; reflexivity. Qed.
Example C69_lightning_swap_applies : melt_mint toy [coin 128 (B "f")] (B "m") [mkK (B "k") 0; mkK (B "f") 1000] (B "n") = Ok (inl SwapManual) /\ melt_mint toy [coin 128 (B "k")] (B "m") [mkK (B "k") 0; mkK (B "f") 1000] (B "n") <> Ok (inl SwapManual).
Proof. split; [vm_compute; reflexivity|vm_compute; discriminate]. Qed.
(** A locked proof received by a wallet without a key crashes it. *)
Theorem C69_receive_panic_refuted M known ts ps source dest id k r : receive M known None ts (mkP ps k (P2pk r) :: []) source dest id = Panic.
Proof. reflexivity. Qed.

(** Paying an invoice: the outputs for the change are made for one guess of the change, so a change with more bits does not fit.
    The invoice costs 101 units of 116, the wallet keeps 8 and 7 are lost. *)
Definition purse2 : list token := [mkT (B "m") [coin 64 (B "k"); coin 32 (B "k"); coin 16 (B "k"); coin 4 (B "k")] [] (Some (B "t1"))].
Theorem C69_pay_loses_change_refuted : exists s, pay toy purse2 (B "lnbc") 100 (B "m") (Some (B "t2")) = Ok s /\ worth purse2 = 116 /\ worth (se_tokens s) = 8 /\ se_history s = 108.
Proof. eexists. split; [vm_compute; reflexivity|]. repeat split. Qed.
(** The fee is taken off twice when the change is guessed: with 106 units and a fee of 4 the guess is below zero and 63 outputs are made. *)
Theorem C69_pay_fee_twice_refuted : exists c keep principal change, pay_quotes toy 5 [mkT (B "m") [coin 64 (B "f"); coin 32 (B "f"); coin 8 (B "f"); coin 2 (B "f")] [] None] (B "lnbc") 100 1 [] [] = Ok (c, keep) /\ total (ch_proofs c) = 106 /\ keep = 104 /\
  split_amounts (ch_keysets c) (ch_proofs c) keep Free = Ok (principal, change) /\ sum (map o_amount change) = 18446744073709551614 /\ length change = 63%nat.
Proof. do 4 eexists. split; [vm_compute; reflexivity|]. vm_compute. repeat split. Qed.
Lemma pay_quotes_ok M f ts invoice sats abs specific exclude c keep : pay_quotes M f ts invoice sats abs specific exclude = Ok (c, keep) ->
  exists amt excl fee a reserve, 0 <= amt < 18446744073709551616 /\ get_proofs M ts amt specific excl = Ok (c, fee) /\ m_melt_quote M (ch_mint c) invoice = Some (a, reserve) /\ w64 (w64 (a + reserve) + fee) <= amount_of (ch_proofs c) /\ keep = w64 (sats + fee).
Proof.
  revert abs exclude. induction f as [|f IH]; intros abs exclude H; [discriminate|]. cbn [pay_quotes] in H. destruct (get_proofs M ts _ specific exclude) as [[c' fee]| |] eqn:G; try discriminate. cbn [obind fst snd] in H.
  destruct (negb _); [exact (IH _ _ H)|]. destruct (m_melt_quote M (ch_mint c') invoice) as [[a reserve]|] eqn:Q; [|discriminate]. destruct (Z.ltb_spec (amount_of (ch_proofs c')) (w64 (w64 (a + reserve) + fee))) as [L|L]; [exact (IH _ _ H)|].
  assert (c' = c /\ keep = w64 (sats + fee)) as [-> ->] by (split; congruence). do 5 eexists. split; [apply w64_range|]. split; [exact G|]. split; [exact Q|]. split; [exact L|reflexivity].
Qed.
(** The mint gives back no more than it was sent. *)
Definition change_is_less (M : mints) : Prop := forall mint invoice ps outs paid sigs, m_melt M mint invoice ps outs = Some (paid, sigs) -> Forall (fun s => 0 <= sg_amount s) sigs /\ sum (map sg_amount sigs) <= total ps.
(** Paying: the proofs cover what the mint wants; the history shows what was spent less the change; with change, that is what the wallet lost. *)
Theorem C69_pay_partial M ts invoice sats specific id s : sane M ts -> change_is_less M -> pay M ts invoice sats specific id = Ok s ->
  exists a b kss fee want reserve, ts = a ++ b /\ m_keysets M (se_mint s) = Some kss /\ fee_is kss (held (se_mint s) a) fee /\ m_melt_quote M (se_mint s) invoice = Some (want, reserve) /\
  (0 <= want -> 0 <= reserve -> want + reserve < 9223372036854775808 -> want + reserve + fee <= total (held (se_mint s) a)) /\
  ((exists t, se_change s = Some t /\ tk_mint t = se_mint s /\ se_history s = total (held (se_mint s) a) - total (tk_proofs t) /\ se_tokens s = others (se_mint s) a ++ b ++ [t] /\ worth ts = worth (se_tokens s) + se_history s) \/
   (se_change s = None /\ se_history s = total (held (se_mint s) a) /\ se_tokens s = ts)).
Proof.
  intros S HC H. unfold pay in H. destruct (pay_quotes M 5 ts invoice sats 1 specific []) as [[c keep]| |] eqn:PQ; try discriminate. cbn [obind fst snd] in H. apply pay_quotes_ok in PQ. destruct PQ as (amt & excl & fee & want & reserve & AB & G & MQ & L & _).
  pose proof (choose_spec M amt specific excl ts [] []) as C. cbn [length app] in C. unfold get_proofs in G. rewrite G in C. destruct C as (a & t & b & kss & E & Al & K & -> & F & L1 & L2). { intros m _ t []. }
  cbn [ch_mint ch_idx ch_proofs ch_keysets] in *. assert (E' : ts = (a ++ [t]) ++ b) by (rewrite <- app_assoc; exact E). destruct (sane_held M ts (a ++ [t]) b (tk_mint t) kss S E' K) as (T & Q & FF). destruct (calc_fee_value _ _ _ FF F) as [V FB].
  destruct (m_active M (tk_mint t)) as [[ks has]|]; [|discriminate].
  assert (X : exists outs sigs, m_melt M (tk_mint t) invoice (held (tk_mint t) (a ++ [t])) outs = Some (true, sigs) /\
     obind (construct has outs sigs) (fun change => obind (save_change ts (tk_mint t) change (places (tk_mint t) 0 (a ++ [t])) id) (fun r => Ok (mkSent [] (tk_mint t) (fst (fst r)) (w64 (amount_of (held (tk_mint t) (a ++ [t])) - amount_of change)) (snd (fst r)) (snd r)))) = Ok s).
  { destruct (split_amounts _ _ _ _) as [[pp ch]| |]; [| |discriminate].
    - destruct (m_melt M (tk_mint t) invoice (held (tk_mint t) (a ++ [t])) ch) as [[[|] sigs]|] eqn:MM; try discriminate. exists ch, sigs. split; [exact MM|exact H].
    - destruct (m_melt M (tk_mint t) invoice (held (tk_mint t) (a ++ [t])) []) as [[[|] sigs]|] eqn:MM; try discriminate. exists [], sigs. split; [exact MM|exact H]. }
  clear H. destruct X as (outs & sigs & MM & H). destruct (construct has outs sigs) as [ch| |] eqn:CO; try discriminate. cbn [obind] in H. apply construct_ok in CO. destruct CO as (CA & _). destruct (HC _ _ _ _ _ _ MM) as [CP CL].
  assert (CT : 0 <= total ch <= total (held (tk_mint t) (a ++ [t]))). { rewrite (total_sum ch), CA. split; [|exact CL]. clear - CP. induction CP as [|s l Hs _ IH]; cbn; [lia|]. fold (sum (map sg_amount l)). lia. }
  destruct (save_change _ _ _ _ _) as [r| |] eqn:SC; try discriminate. cbn [obind] in H. match type of H with Ok ?x = Ok _ => assert (s = x) as -> by congruence end. clear H. cbn [se_mint se_proofs se_history se_deleted se_change se_tokens].
  exists (a ++ [t]), b, kss, fee, want, reserve. split; [exact E'|]. split; [exact K|]. split; [exact V|]. split; [exact MQ|]. split. { intros W1 W2 W3. rewrite Q, (w64_small (want + reserve)), w64_small in L by lia. exact L. }
  assert (CH : amount_of ch = total ch) by (apply amount_of_total; lia). rewrite CH, Q, w64_small by lia.
  assert (N : unused 0 (places (tk_mint t) 0 (a ++ [t])) ts = others (tk_mint t) (a ++ [t]) ++ b). { rewrite E'. exact (unused_places (tk_mint t) 0 [] (a ++ [t]) b (fun j (F : In j []) => match F with end)). }
  unfold save_change in SC. rewrite N in SC. destruct ch as [|p0 ch0].
  - match type of SC with Ok ?x = Ok _ => assert (r = x) as -> by congruence end. cbn [fst snd]. right. split; [reflexivity|]. split; [cbn [total fold_right]; lia|reflexivity].
  - destruct id as [id|]; [|discriminate]. match type of SC with Ok ?x = Ok _ => assert (r = x) as -> by congruence end. cbn [fst snd]. left. eexists. split; [reflexivity|]. cbn [tk_mint tk_proofs]. split; [reflexivity|]. split; [reflexivity|]. split; [rewrite <- app_assoc; reflexivity|].
    rewrite !worth_app. rewrite E', worth_app, (worth_others (tk_mint t) (a ++ [t])). match goal with |- context [worth [?x]] => change (worth [x]) with (total (tk_proofs x) + 0) end. cbn [tk_proofs]. lia.
Qed.
(** More change than was asked for crashes the wallet after it has paid. *)
Theorem C69_pay_panic_refuted : exists M, pay M [mkT (B "m") [coin 64 (B "k"); coin 32 (B "k"); coin 16 (B "k")] [] None] (B "lnbc") 96 (B "m") None = Panic /\ exists s, pay toy [mkT (B "m") [coin 64 (B "k"); coin 32 (B "k"); coin 16 (B "k")] [] None] (B "lnbc") 96 (B "m") (Some []) = Ok s.
Proof.
  exists (mkMints (m_keysets toy) (m_active toy) (m_swap toy) (m_info toy) (m_melt_quote toy) (fun _ _ _ _ => Some (true, [mkSig 8 (B "k") true; mkSig 4 (B "k") true])) (m_mint_quote toy) (m_mint toy) (m_collide toy)).
  split; [vm_compute; reflexivity|eexists; vm_compute; reflexivity].
Qed.

(** * C70 *)
(** One satoshi is 10000 pico-bitcoin. *)
Inductive multiplier := Milli | Micro | Nano | Pico | Whole.
Definition letter (m : multiplier) : str := match m with Milli => B "m" | Micro => B "u" | Nano => B "n" | Pico => B "p" | Whole => [] end.
Definition picos (m : multiplier) : Z := match m with Milli => 1000000000 | Micro => 1000000 | Nano => 1000 | Pico => 1 | Whole => 1000000000000 end.
(** 21 million bitcoin *)
Definition all_there_is : Z := 21000000 * 1000000000000.

Lemma last_one_app a b i best : last_one (a ++ b) i best = last_one b (i + length a) (last_one a i best).
Proof. revert i best. induction a as [|c a IH]; intros i best; cbn [app last_one length]; [rewrite Nat.add_0_r; reflexivity|]. rewrite IH. f_equal. lia. Qed.
Lemma last_one_none b i best : ~ In "1"%char b -> last_one b i best = best.
Proof. revert i best. induction b as [|c b IH]; intros i best H; [reflexivity|]. cbn [last_one]. unfold ceqb. destruct (Ascii.eqb_spec c "1") as [->|_]; [destruct H; left; reflexivity|]. apply IH. intro I. apply H. right. exact I. Qed.
Lemma last_sep hrp data : ~ In "1"%char data -> (length hrp < 50)%nat -> (50 <= length (hrp ++ B "1" ++ data))%nat -> last_one (firstn 50 (hrp ++ B "1" ++ data)) 0 None = Some (length hrp).
Proof.
  intros N L G. rewrite firstn_app. rewrite (firstn_all2 hrp) by lia. destruct (50 - length hrp)%nat as [|k] eqn:E; [lia|]. change (B "1" ++ data) with ("1"%char :: data). cbn [firstn]. rewrite last_one_app. cbn [last_one]. change (ceqb "1" "1") with true. cbn iota.
  rewrite last_one_none; [f_equal|]. intro I. apply N. rewrite <- (firstn_skipn k data). apply in_or_app. left. exact I.
Qed.
Lemma digits_dec c : is_digit c = true -> is_dec c = true.
Proof. unfold is_digit, is_dec, val. lia. Qed.

(** The number must fit a machine word: in pico-bitcoin that is a little less than all there is. *)
Theorem C70_partial ds n m data : parse_digits ds = Some n -> Z.of_N n <= 18446744073709551615 -> Z.of_N n * picos m <= all_there_is -> ~ In "1"%char data -> (length (B "lnbc" ++ ds ++ letter m) < 50 <= length (B "lnbc" ++ ds ++ letter m ++ B "1" ++ data))%nat ->
  sats_of (B "lnbc" ++ ds ++ letter m ++ B "1" ++ data) = Ok (Z.of_N n * picos m / 10000).
Proof.
  intros P B64 W N [L G]. assert (E : B "lnbc" ++ ds ++ letter m ++ B "1" ++ data = (B "lnbc" ++ ds ++ letter m) ++ B "1" ++ data) by (rewrite <- !app_assoc; reflexivity). rewrite E in *.
  unfold sats_of. destruct (Nat.ltb_spec (length ((B "lnbc" ++ ds ++ letter m) ++ B "1" ++ data)) 50); [lia|]. rewrite (last_sep _ _ N L G). rewrite firstn_app, Nat.sub_diag, firstn_O, app_nil_r, firstn_all.
  change (has_prefix (B "lnbc" ++ ds ++ letter m) (B "lnbc")) with true. cbn [negb]. change (skipn 4 (B "lnbc" ++ ds ++ letter m)) with (ds ++ letter m).
  assert (PU : parse_uint ds = Some (Z.of_N n)). { unfold parse_uint. rewrite P. unfold max_uint64. unfold all_there_is in W. destruct (Z.leb_spec (Z.of_N n) 18446744073709551615); [reflexivity|lia]. }
  assert (DS : ds <> [] /\ forallb is_digit ds = true). { unfold parse_digits in P. destruct ds; [discriminate|]. split; [discriminate|]. destruct (forallb is_digit (a :: ds)); [reflexivity|discriminate]. } destruct DS as [DN DD].
  unfold all_there_is in W.
  destruct m; cbn [letter picos] in *; try (change (B "m") with ["m"%char] || change (B "u") with ["u"%char] || change (B "n") with ["n"%char] || change (B "p") with ["p"%char]); rewrite ?rev_app_distr; cbn [rev app].
  - change (is_dec "m") with false. cbn iota. rewrite rev_involutive. destruct ds as [|d0 ds0]; [congruence|]. rewrite PU. change (ceqb "m" "m") with true. cbn iota. rewrite w64_small by lia. f_equal. lia.
  - change (is_dec "u") with false. cbn iota. rewrite rev_involutive. destruct ds as [|d0 ds0]; [congruence|]. rewrite PU. change (ceqb "u" "m") with false. change (ceqb "u" "u") with true. cbn iota. rewrite w64_small by lia. f_equal. lia.
  - change (is_dec "n") with false. cbn iota. rewrite rev_involutive. destruct ds as [|d0 ds0]; [congruence|]. rewrite PU. change (ceqb "n" "m") with false. change (ceqb "n" "u") with false. change (ceqb "n" "n") with true. cbn iota. f_equal. lia.
  - change (is_dec "p") with false. cbn iota. rewrite rev_involutive. destruct ds as [|d0 ds0]; [congruence|]. rewrite PU. change (ceqb "p" "m") with false. change (ceqb "p" "u") with false. change (ceqb "p" "n") with false. change (ceqb "p" "p") with true. cbn iota. f_equal. lia.
  - rewrite app_nil_r. destruct (rev ds) as [|c r] eqn:R. { apply (f_equal (@rev ascii)) in R. rewrite rev_involutive in R. cbn in R. congruence. }
    assert (IC : In c ds) by (rewrite <- (rev_involutive ds), R; apply in_rev; rewrite rev_involutive; left; reflexivity). pose proof (proj1 (forallb_forall _ _) DD c IC) as DC. rewrite (digits_dec c DC). destruct ds as [|d0 ds0]; [congruence|]. rewrite PU.
    assert (NC : forall x, is_digit x = false -> ceqb c x = false). { intros x NX. unfold ceqb. destruct (Ascii.eqb_spec c x); [congruence|reflexivity]. }
    rewrite !NC by reflexivity. rewrite w64_small by lia. f_equal. lia.
Qed.
(** No amount: zero. Another network: refused. *)
Theorem C70_none data : ~ In "1"%char data -> (45 <= length data)%nat -> sats_of (B "lnbc1" ++ data) = Ok 0.
Proof.
  intros N G. assert (E : B "lnbc1" ++ data = B "lnbc" ++ B "1" ++ data) by reflexivity. rewrite E. assert (L : (50 <= length (B "lnbc" ++ B "1" ++ data))%nat) by (rewrite !app_length; cbn; lia).
  unfold sats_of. destruct (Nat.ltb_spec (length (B "lnbc" ++ B "1" ++ data)) 50); [lia|]. rewrite (last_sep (B "lnbc") data N); [|cbn; lia|exact L]. reflexivity.
Qed.
Theorem C70_other_network s n : has_prefix s (B "lnbc") = false -> sats_of s <> Ok n.
Proof.
  intros N. unfold sats_of. destruct (length s <? 50)%nat; [discriminate|]. destruct (last_one (firstn 50 s) 0 None) as [i|]; [|discriminate]. destruct (has_prefix (firstn i s) (B "lnbc")) eqn:H; [|discriminate]. exfalso.
  assert (G : forall p a k, has_prefix (firstn k a) p = true -> has_prefix a p = true). { induction p as [|c p IH]; intros [|x a] [|k] X; try reflexivity; try discriminate. cbn in *. apply andb_prop in X. destruct X as [X1 X2]. rewrite X1. exact (IH _ _ X2). }
  rewrite (G _ _ _ H) in N. discriminate.
Qed.
Example C70_applies : sats_of (B "lnbc2500u1pvjluezpp5qqqsyqcyq5rqwzqfqqqsyqcyq5rqwzqfqqqsyq") = Ok 250000 /\ sats_of (B "lnbc9678785340p1pwmna7lpp5gc3xfm08u9qy06djf8dfflhugl6p") = Ok 967878 /\ sats_of (B "lnbc21000000wwwww1pvjluezpp5qqqsyqcyq5rqwzqfqqqsyqcyq5") = Err.
Proof. vm_compute. repeat split. Qed.
(** A letter that is no multiplier is read as whole bitcoin: 5 of an unknown unit is 500 million satoshis. *)
Theorem C70_unknown_unit_refuted : sats_of (B "lnbc5z1pvjluezpp5qqqsyqcyq5rqwzqfqqqsyqcyq5rqwzqfqqqsyq") = Ok 500000000.
Proof. vm_compute. reflexivity. Qed.
(** Amounts beyond the money there is wrap: 184467440738 bitcoin are read as less than one. *)
Theorem C70_wrap_refuted : sats_of (B "lnbc1844674407381pvjluezpp5qqqsyqcyq5rqwzqfqqqsyqcyq5rqw") = Ok 90448384.
Proof. vm_compute. reflexivity. Qed.
Theorem C70_pico_refuted : exists n, n * picos Pico <= all_there_is /\ sats_of (B "lnbc" ++ dec_Z n ++ B "p1vjluezpp5qqqsyqcyq5rqwzqfqqqsyqcyq5rqw") = Err.
Proof. exists 20000000000000000000. split; vm_compute; [discriminate|reflexivity]. Qed.

Print Assumptions C69_selection.
Print Assumptions C69_selection_refused.
Print Assumptions C69_selection_panic.
Print Assumptions C69_send_partial.
Print Assumptions C69_send_succeeds.
Print Assumptions C69_receive.
Print Assumptions C69_change_locked_refuted.
Print Assumptions C69_destination_refuted.
Print Assumptions C69_lightning_swap_refuted.
Print Assumptions C69_spent_tokens_stay_refuted.
Print Assumptions C69_change_del_refuted.
Print Assumptions C69_destination_inverted_refuted.
Print Assumptions C69_receive_panic_refuted.
Print Assumptions C69_pay_loses_change_refuted.
Print Assumptions C69_pay_fee_twice_refuted.
Print Assumptions C69_pay_partial.
Print Assumptions C69_pay_panic_refuted.
Print Assumptions C70_partial.
Print Assumptions C70_none.
Print Assumptions C70_other_network.
Print Assumptions C70_unknown_unit_refuted.
Print Assumptions C70_wrap_refuted.
Print Assumptions C70_pico_refuted.

(** ** What a mint's answers come to *)
(** With no more signatures than outputs nothing crashes: proofs come out if every signature checks out and the keyset has a key for its amount, and an error otherwise. *)
Theorem C69_signatures has outs sigs : (length sigs <= length outs)%nat ->
  (Forall (fun s => has (sg_amount s) = true /\ sg_good s = true) sigs ->
     exists ps, construct has outs sigs = Ok ps /\ map pr_amount ps = map sg_amount sigs /\ map pr_ks ps = map sg_ks sigs /\ map pr_lock ps = firstn (length sigs) (map o_lock outs)) /\
  (~ Forall (fun s => has (sg_amount s) = true /\ sg_good s = true) sigs -> construct has outs sigs = Err).
Proof.
  revert outs. induction sigs as [|s sigs IH]; intros outs L.
  - split; [|intro F; destruct F; constructor]. intros _. exists []. repeat split.
  - destruct outs as [|o outs]; [cbn in L; lia|]. cbn [construct]. assert (L' : (length sigs <= length outs)%nat) by (cbn in L; lia). destruct (IH outs L') as [I1 I2]. split.
    + intro F. inversion_clear F as [|? ? [H1 H2] F2]. destruct (I1 F2) as (ps & E & P1 & P2 & P3). rewrite H1, H2. cbn [negb]. rewrite E. cbn [obind]. eexists. split; [reflexivity|]. cbn [map pr_amount pr_ks pr_lock length firstn]. rewrite P1, P2, P3. repeat split.
    + intro F. destruct (has (sg_amount s)) eqn:H1; cbn [negb]; [|reflexivity]. destruct (sg_good s) eqn:H2; cbn [negb]; [|reflexivity]. rewrite I2; [reflexivity|]. intro F2. apply F. constructor; auto.
Qed.
Example C69_signatures_example : construct (fun _ => true) [mkO 2 Free; mkO 4 Free] [mkSig 2 (B "k") true; mkSig 4 (B "k") false] = Err /\ construct (fun _ => true) [mkO 2 Free] [mkSig 2 (B "k") true] = Ok [mkP 2 (B "k") Free].
Proof. split; reflexivity. Qed.
(** One signature more than outputs crashes it (if the keyset has a key for its amount and those before check out). *)
Theorem C69_signatures_crash_refuted has outs sigs s : length sigs = length outs -> Forall (fun s => has (sg_amount s) = true /\ sg_good s = true) sigs -> has (sg_amount s) = true -> construct has outs (sigs ++ [s]) = Panic.
Proof.
  revert outs. induction sigs as [|x sigs IH]; intros [|o outs] L F H; try discriminate L; cbn [app construct].
  - rewrite H. reflexivity.
  - inversion_clear F as [|? ? [H1 H2] F2]. rewrite H1, H2. cbn [negb]. rewrite IH; [reflexivity|cbn in L; lia|exact F2|exact H].
Qed.
(** The other known mints must all answer; then their keysets, all of them, are what collisions are looked for in. *)
Theorem C69_other_mints M known mint (kss : str -> list keyset) : (forall m, In m known -> m <> mint -> m_keysets M m = Some (kss m)) ->
  other_ids M known mint = Some (flat_map (fun m => if seqb m mint then [] else map ks_id (kss m)) known).
Proof.
  induction known as [|m known IH]; intro H; [reflexivity|]. cbn [other_ids flat_map]. rewrite IH by (intros x X; apply H; right; exact X). destruct (seqb_spec m mint) as [E|N]; [reflexivity|]. rewrite (H m (or_introl eq_refl) N). reflexivity.
Qed.
Theorem C69_other_mint_silent M known mint m ps target k signer : In m known -> m <> mint -> m_keysets M m = None -> swap_proofs M known mint ps target k signer = Err.
Proof.
  intros I N K. unfold swap_proofs. assert (E : other_ids M known mint = None); [|rewrite E; reflexivity]. induction known as [|x known IH]; [destruct I|]. cbn [other_ids]. destruct I as [->|I].
  - destruct (seqb_spec m mint) as [E|_]; [congruence|]. rewrite K. reflexivity.
  - rewrite (IH I). destruct (seqb x mint); [reflexivity|]. destruct (m_keysets M x); reflexivity.
Qed.
(** A keyset of this mint collides if it does with one of another mint or with an earlier one of its own. Then there is no swap. *)
Theorem C69_collisions M ids kss : collisions M ids kss = true <-> exists a k b, kss = a ++ k :: b /\ m_collide M (ids ++ map ks_id a) (ks_id k) = true.
Proof.
  revert ids. induction kss as [|k kss IH]; intro ids; cbn [collisions].
  - split; [discriminate|]. intros (a & k & b & E & _). destruct a; discriminate E.
  - rewrite orb_true_iff, IH. split.
    + intros [H|(a & x & b & -> & H)]; [exists [], k, kss; rewrite app_nil_r; auto|]. exists (k :: a), x, b. rewrite <- app_assoc in H. auto.
    + intros (a & x & b & E & H). destruct a as [|y a]; cbn [app] in E.
      * left. rewrite app_nil_r in H. congruence.
      * right. exists a, x, b. rewrite <- app_assoc. split; [congruence|]. assert (y = k) as -> by congruence. exact H.
Qed.
Theorem C69_collision_refused M known mint ids a k b ps target l signer : other_ids M known mint = Some ids -> m_keysets M mint = Some (a ++ k :: b) -> m_collide M (ids ++ map ks_id a) (ks_id k) = true ->
  swap_proofs M known mint ps target l signer = Err.
Proof.
  intros O K H. unfold swap_proofs. rewrite O, K. assert (C : collisions M ids (a ++ k :: b) = true) by (apply C69_collisions; eauto). rewrite C. reflexivity.
Qed.
(** A mint that does not know locks is not asked to lock. *)
Theorem C69_no_locks M known ts amount specific key id c fee : get_proofs M ts amount specific [] = Ok (c, fee) -> (m_info M (ch_mint c) = None \/ exists b, m_info M (ch_mint c) = Some (false, b)) ->
  send M known ts amount specific (Some key) id = Err.
Proof. intros G H. unfold send. rewrite G. cbn [obind fst]. destruct H as [->|[b ->]]; reflexivity. Qed.
(** ** Moving money between mints *)
(** What is agreed: some 90 to 99 of 100 parts are to be paid, the target's invoice is for the fee less, and the source can pay invoice, reserve and fee. *)
Theorem C69_lightning_quote M tot fee from to invoice amount asked : melt_quotes M 10 tot fee 99 from to = inr (invoice, amount, asked) ->
  exists pct a reserve, 90 <= pct <= 99 /\ amount = w64 (tot * pct) / 100 /\ asked = w64 (amount - fee) /\ m_mint_quote M to asked = Some invoice /\ m_melt_quote M from invoice = Some (a, reserve) /\ w64 (a + reserve + fee) <= tot.
Proof.
  assert (G : forall f pct, pct - Z.of_nat f = 89 -> melt_quotes M f tot fee pct from to = inr (invoice, amount, asked) ->
    exists pct' a reserve, 90 <= pct' <= pct /\ amount = w64 (tot * pct') / 100 /\ asked = w64 (amount - fee) /\ m_mint_quote M to asked = Some invoice /\ m_melt_quote M from invoice = Some (a, reserve) /\ w64 (a + reserve + fee) <= tot).
  { induction f as [|f IH]; intros pct L H; [discriminate|]. cbn [melt_quotes] in H. destruct (m_mint_quote M to (w64 (w64 (tot * pct) / 100 - fee))) as [inv|] eqn:Q; [|discriminate]. destruct (m_melt_quote M from inv) as [[a reserve]|] eqn:MQ; [|discriminate].
    destruct (Z.ltb_spec tot (w64 (w64 (a + reserve) + fee))) as [LT|GE].
    - apply IH in H; [|lia]. destruct H as (p & a' & r' & P & H). exists p, a', r'. split; [lia|exact H].
    - assert (inv = invoice /\ amount = w64 (tot * pct) / 100 /\ asked = w64 (w64 (tot * pct) / 100 - fee)) as (-> & -> & ->) by (repeat split; congruence). rewrite w64_add in GE. exists pct, a, reserve. repeat split; auto; try lia. }
  intro H. apply (G 10%nat 99) in H; [exact H|reflexivity].
Qed.
(** If the target is paid and does not deliver, receiving fails; the proofs that were swapped are then in no token. *)
Theorem C69_target_keeps_it_refuted M ps from kss to r : melt_mint M ps from kss to = Ok (inl SwapManual) -> try_mints M ps from kss (to :: r) = Err.
Proof. intro H. cbn [try_mints]. rewrite H. reflexivity. Qed.
(** Without a token event nothing is received, and that is an error. *)
Theorem C69_receive_unsaved M known key ts ps source dest id ts' shown : receive M known key ts ps source dest (Some id) = Ok (ts', shown) -> receive M known key ts ps source dest None = Err.
Proof.
  unfold receive. destruct (sign_inputs key ps None) as [sg| |]; [|discriminate..]. cbn [obind]. destruct (m_keysets M source) as [kss|]; [|discriminate]. destruct (swap_proofs _ _ _ _ _ _ _) as [pc| |]; [|discriminate..]. cbn [obind].
  destruct (if existsb (seqb source) dest then _ else _) as [mp| |]; [|discriminate..]. reflexivity.
Qed.
(** ** Sending to another mint over lightning *)
(** It succeeds when the target makes an invoice, the wallet pays it and the target delivers; then the new proofs are worth exactly what was asked, if the target signs as asked. *)
Definition mints_as_asked (M : mints) : Prop := forall mint invoice outs sigs, m_mint M mint invoice outs = Some sigs -> map sg_amount sigs = map o_amount outs.
Theorem C69_external M ts mint target sats_in id ts' ps : mints_as_asked M -> 0 <= target < 18446744073709551616 ->
  (send_external M ts mint target sats_in id = Ok (ts', ps) <->
   exists invoice sats s, m_mint_quote M mint target = Some invoice /\ sats_in invoice = Ok sats /\ pay M ts invoice sats [] id = Ok s /\ ts' = se_tokens s /\ redeem M mint invoice target = Some ps) /\
  (send_external M ts mint target sats_in id = Ok (ts', ps) -> total ps = target /\ Forall (fun p => pr_lock p = Free) ps).
Proof.
  intros HM T. assert (A : send_external M ts mint target sats_in id = Ok (ts', ps) <->
   exists invoice sats s, m_mint_quote M mint target = Some invoice /\ sats_in invoice = Ok sats /\ pay M ts invoice sats [] id = Ok s /\ ts' = se_tokens s /\ redeem M mint invoice target = Some ps).
  { unfold send_external. split.
    - destruct (m_mint_quote M mint target) as [invoice|]; [|discriminate]. destruct (sats_in invoice) as [sats| |] eqn:SI; [|discriminate..]. cbn [obind]. destruct (pay M ts invoice sats [] id) as [s| |] eqn:P; [|discriminate..]. cbn [obind]. destruct (redeem M mint invoice target) as [q|] eqn:R; [|discriminate]. intro H. exists invoice, sats, s. assert (se_tokens s = ts' /\ q = ps) as [<- <-] by (split; congruence). auto.
    - intros (invoice & sats & s & -> & -> & H & -> & R). cbn [obind]. rewrite H. cbn [obind]. rewrite R. reflexivity. }
  split; [exact A|]. intro H. apply A in H. destruct H as (invoice & sats & s & _ & _ & _ & _ & R). unfold redeem in R. destruct (m_active M mint) as [[ks has]|]; [|discriminate]. destruct (m_mint M mint invoice _) as [sigs|] eqn:MM; [|discriminate].
  destruct (construct _ _ _) as [q| |] eqn:C; try discriminate. assert (q = ps) as -> by congruence. pose proof (HM _ _ _ _ MM) as E. pose proof (f_equal (@length Z) E) as LE. rewrite !map_length in LE. rewrite map_o_amount in E.
  assert (F : Forall (fun s => has (sg_amount s) = true /\ sg_good s = true) sigs \/ ~ Forall (fun s => has (sg_amount s) = true /\ sg_good s = true) sigs).
  { destruct (forallb (fun s => has (sg_amount s) && sg_good s) sigs) eqn:FB; [left|right].
    - rewrite Forall_forall. rewrite forallb_forall in FB. intros x X. apply andb_true_iff, FB, X.
    - intro F. assert (forallb (fun s => has (sg_amount s) && sg_good s) sigs = true); [|congruence]. apply forallb_forall. rewrite Forall_forall in F. intros x X. apply andb_true_iff, F, X. }
  destruct (C69_signatures has (map (fun x => mkO x Free) (amount_split target)) sigs) as [C1 C2]; [rewrite map_length; lia|]. destruct F as [F|F]; [|rewrite (C2 F) in C; discriminate C]. destruct (C1 F) as (q & Cq & P1 & _ & P3). assert (q = ps) as -> by congruence. split.
  - rewrite total_sum, P1, E. apply amount_split_sum. exact T.
  - apply Forall_forall. intros p I. apply (in_map pr_lock) in I. rewrite P3, map_o_lock in I. assert (I' : In (pr_lock p) (map (fun _ : Z => Free) (amount_split target))) by (rewrite <- (firstn_skipn (length sigs) (map (fun _ => Free) (amount_split target))); apply in_or_app; left; exact I). clear I. rename I' into I. apply in_map_iff in I. destruct I as (x & E1 & _). congruence.
Qed.
Example C69_external_applies : exists ts' ps, send_external toy purse2 (B "n") 100 (fun _ => Ok 100) (Some (B "t4")) = Ok (ts', ps) /\ total ps = 100.
Proof. eexists. eexists. split; vm_compute; reflexivity. Qed.
(** ** C70: every character that is neither a digit nor one of the four letters is taken for whole bitcoin. *)
Theorem C70_unknown_unit_any_refuted ds n c data : parse_digits ds = Some n -> Z.of_N n * 100000000 <= 18446744073709551615 -> ~ In c (B "0123456789munp") -> ~ In "1"%char data ->
  (length (B "lnbc" ++ ds ++ [c]) < 50 <= length (B "lnbc" ++ ds ++ [c] ++ B "1" ++ data))%nat -> sats_of (B "lnbc" ++ ds ++ [c] ++ B "1" ++ data) = Ok (Z.of_N n * 100000000).
Proof.
  intros P W NC N [L G]. assert (E : B "lnbc" ++ ds ++ [c] ++ B "1" ++ data = (B "lnbc" ++ ds ++ [c]) ++ B "1" ++ data) by (rewrite <- !app_assoc; reflexivity). rewrite E in *.
  unfold sats_of. destruct (Nat.ltb_spec (length ((B "lnbc" ++ ds ++ [c]) ++ B "1" ++ data)) 50); [lia|]. rewrite (last_sep _ _ N L G). rewrite firstn_app, Nat.sub_diag, firstn_O, app_nil_r, firstn_all.
  change (has_prefix (B "lnbc" ++ ds ++ [c]) (B "lnbc")) with true. cbn [negb]. change (skipn 4 (B "lnbc" ++ ds ++ [c])) with (ds ++ [c]).
  assert (PU : parse_uint ds = Some (Z.of_N n)). { unfold parse_uint. rewrite P. unfold max_uint64. destruct (Z.leb_spec (Z.of_N n) 18446744073709551615); [reflexivity|lia]. }
  assert (DC : is_dec c = false).
  { destruct (is_dec c) eqn:D; [|reflexivity]. exfalso. apply NC. unfold is_dec in D. apply andb_true_iff in D as [D1 D2]. apply N.leb_le in D1, D2. rewrite <- (ascii_N_embedding c).
    assert (K : (N_of_ascii c = 48 \/ N_of_ascii c = 49 \/ N_of_ascii c = 50 \/ N_of_ascii c = 51 \/ N_of_ascii c = 52 \/ N_of_ascii c = 53 \/ N_of_ascii c = 54 \/ N_of_ascii c = 55 \/ N_of_ascii c = 56 \/ N_of_ascii c = 57)%N) by lia.
    repeat (destruct K as [K|K]; [rewrite K; vm_compute; tauto|]). rewrite K. vm_compute. tauto. }
  rewrite rev_app_distr. cbn [rev app]. rewrite DC, rev_involutive. destruct ds as [|d0 ds0]; [discriminate P|]. rewrite PU.
  assert (X : forall x, In x (B "munp") -> ceqb c x = false). { intros x X. unfold ceqb. destruct (Ascii.eqb_spec c x) as [->|]; [|reflexivity]. destruct NC. vm_compute in X |- *. tauto. }
  rewrite !X by (vm_compute; tauto). rewrite w64_small by lia. reflexivity.
Qed.
Example C70_unknown_unit_example : sats_of (B "lnbc5:1pvjluezpp5qqqsyqcyq5rqwzqfqqqsyqcyq5rqwzqfqqqsyq") = Ok 500000000.
Proof. vm_compute. reflexivity. Qed.

Print Assumptions C69_signatures.
Print Assumptions C69_signatures_crash_refuted.
Print Assumptions C69_other_mints.
Print Assumptions C69_other_mint_silent.
Print Assumptions C69_collisions.
Print Assumptions C69_collision_refused.
Print Assumptions C69_no_locks.
Print Assumptions C69_lightning_quote.
Print Assumptions C69_target_keeps_it_refuted.
Print Assumptions C69_receive_unsaved.
Print Assumptions C69_external.
Print Assumptions C70_unknown_unit_any_refuted.

(** ** What fails, and what crashes *)
(** A hash-locked proof is refused, not crashed on, if the wallet has a key or no key-locked proof comes before it. *)
Theorem C69_hash_lock_refused M known key ts a p b source dest id : pr_lock p = Htlc -> (key <> None \/ Forall (fun q => pr_lock q = Free) a) -> receive M known key ts (a ++ p :: b) source dest id = Err.
Proof.
  intros HP HK. assert (G : forall sg, sign_inputs key (a ++ p :: b) sg = Err).
  { induction a as [|q a IH]; intro sg; cbn [app sign_inputs].
    - rewrite HP. reflexivity.
    - destruct (pr_lock q) eqn:Q.
      + apply IH. destruct HK as [HK|HK]; [left; exact HK|right; inversion HK; assumption].
      + destruct key; [apply IH; left; discriminate|]. destruct HK as [HK|HK]; [congruence|]. inversion HK. congruence.
      + destruct key; reflexivity. }
  unfold receive. rewrite G. reflexivity.
Qed.
Example C69_hash_lock_example : receive toy [] None [] [coin 2 (B "k"); mkP 2 (B "k") Htlc] (B "m") [] None = Err.
Proof. reflexivity. Qed.
(** Looking for a mint to pay from crashes only where choosing proofs does ([C69_selection_panic]); five tries without success are an error. *)
Theorem C69_pay_tries M fuel ts invoice sats abs specific exclude : pay_quotes M fuel ts invoice sats abs specific exclude = Panic -> exists amount without, get_proofs M ts amount specific without = Panic.
Proof.
  revert abs exclude. induction fuel as [|f IH]; intros abs exclude H; [discriminate|]. cbn [pay_quotes] in H. destruct (get_proofs M ts _ specific exclude) as [cf| |] eqn:G; [|discriminate|eauto]. cbn [obind] in H. cbv zeta in H.
  destruct (negb _); [exact (IH _ _ H)|]. destruct (m_melt_quote M (ch_mint (fst cf)) invoice) as [[x y]|]; [|discriminate]. destruct (_ <? _); [exact (IH _ _ H)|discriminate].
Qed.
Theorem C69_no_lightning M ts invoice sats specific id : (forall m, match m_info M m with Some (_, b) => b = false | None => True end) -> (forall amount without, get_proofs M ts amount specific without <> Panic) -> pay M ts invoice sats specific id = Err.
Proof.
  intros NL NP. assert (G : forall fuel abs exclude, pay_quotes M fuel ts invoice sats abs specific exclude = Err).
  { induction fuel as [|f IH]; intros abs exclude; [reflexivity|]. cbn [pay_quotes]. specialize (NP (w64 (w64 (sats * 101) / 100 + abs)) exclude). destruct (get_proofs M ts _ specific exclude) as [cf| |]; [|reflexivity|congruence]. cbn [obind]. cbv zeta.
    specialize (NL (ch_mint (fst cf))). destruct (m_info M (ch_mint (fst cf))) as [[x y]|]; [rewrite NL|]; apply IH. }
  unfold pay. rewrite G. reflexivity.
Qed.
Theorem C69_external_refused M ts mint target sats_in id : (m_mint_quote M mint target = None -> send_external M ts mint target sats_in id = Err) /\
  (forall invoice, m_mint_quote M mint target = Some invoice -> (sats_in invoice = Err -> send_external M ts mint target sats_in id = Err) /\
     forall sats, sats_in invoice = Ok sats -> pay M ts invoice sats [] id = Err -> send_external M ts mint target sats_in id = Err).
Proof.
  unfold send_external. split; [intros ->; reflexivity|]. intros invoice ->. split; [intros ->; reflexivity|]. intros sats -> P. cbn [obind]. rewrite P. reflexivity.
Qed.
Example C69_external_refused_example : send_external toy [] (B "nowhere") 5 (fun _ => Ok 5) None = Err /\ (forall amount without, get_proofs toy [] amount [] without <> Panic).
Proof. split; [vm_compute; reflexivity|]. intros amount without. vm_compute. discriminate. Qed.

Print Assumptions C69_hash_lock_refused.
Print Assumptions C69_pay_tries.
Print Assumptions C69_no_lightning.
Print Assumptions C69_external_refused.
