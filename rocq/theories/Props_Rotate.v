(** C117: rotating lists of relays, searching for people, limits of batched queries. *)
From Verif Require Import Base Machine FilterModel FilterProofs EventModel ProfileModel RotateModel.
From Coq Require Import Permutation.
Import ListNotations.
Local Open Scope Z_scope.

Definition max_int : Z := 9223372036854775807.
Lemma wrap_small z : - max_int - 1 <= z <= max_int -> wrap_int z = z.
Proof. unfold wrap_int, max_int. intro H. rewrite Z.mod_small by lia. lia. Qed.
Lemma url_at_in urls s : urls <> [] -> 0 <= s -> exists u, url_at urls s = Ok u /\ nth_error urls (Z.to_nat (s mod Z.of_nat (length urls))) = Some u.
Proof.
  intros NE H. unfold url_at. destruct urls as [|u0 r]; [congruence|]. set (n := Z.of_nat (length (u0 :: r))). assert (N : 0 < n) by (unfold n; cbn [length]; lia).
  rewrite Z.rem_mod_nonneg by lia. pose proof (Z.mod_pos_bound s n N) as M. replace (s mod n <? 0) with false by lia.
  destruct (nth_error (u0 :: r) (Z.to_nat (s mod n))) as [u|] eqn:E; [exists u; auto|]. apply nth_error_None in E. unfold n in *. lia.
Qed.
(** ** Next *)
Lemma map_nodup {X Y} (f : X -> Y) l : NoDup l -> (forall a b, In a l -> In b l -> f a = f b -> a = b) -> NoDup (map f l).
Proof.
  intros ND H. induction ND as [|x l NI ND IH]; [constructor|]. cbn [map]. constructor; [|apply IH; intros a b Ha Hb; apply H; right; assumption].
  intro Q. apply in_map_iff in Q as (y & E & Hy). apply H in E; [subst; contradiction|right; exact Hy|left; reflexivity].
Qed.
(** The relays come in turn: call number i after a serial k gives the relay number k + i + 1, counted around. *)
Theorem C117_in_turn urls k n i : urls <> [] -> 0 <= k -> k + Z.of_nat n <= 9223372036854775807 -> (i < n)%nat ->
  exists u, nth_error (next_urls n urls k) i = Some (Ok u) /\ nth_error urls (Z.to_nat ((k + Z.of_nat i + 1) mod Z.of_nat (length urls))) = Some u.
Proof.
  intro NE. revert k i. induction n as [|n IH]; intros k i K M L; [lia|]. cbn [next_urls]. unfold next_url. rewrite wrap_small by (unfold max_int; lia). destruct i as [|i].
  - destruct (url_at_in urls (k + 1) NE ltac:(lia)) as (u & E1 & E2). exists u. cbn [nth_error]. rewrite E1. split; [reflexivity|]. rewrite <- E2. do 3 f_equal. lia.
  - cbn [nth_error]. destruct (IH (k + 1) i ltac:(lia) ltac:(lia) ltac:(lia)) as (u & E1 & E2). exists u. split; [exact E1|]. rewrite <- E2. do 3 f_equal. lia.
Qed.
Lemma next_urls_length n urls k : length (next_urls n urls k) = n.
Proof. revert k. induction n as [|n IH]; intro k; [reflexivity|]. cbn [next_urls next_url length]. rewrite IH. reflexivity. Qed.
(** As many calls as there are relays give each of them once. *)
Theorem C117_each_once urls k : urls <> [] -> 0 <= k -> k + Z.of_nat (length urls) <= 9223372036854775807 -> Permutation (next_urls (length urls) urls k) (map (@Ok str) urls).
Proof.
  intros NE K M. set (n := length urls). assert (N : 0 < Z.of_nat n) by (unfold n; destruct urls; [congruence|cbn [length]; lia]).
  assert (G : next_urls n urls k = map (fun i => match nth_error urls (Z.to_nat ((k + Z.of_nat i + 1) mod Z.of_nat n)) with Some u => Ok u | None => Panic end) (seq 0 n)).
  { apply nth_ext with (d := Panic) (d' := Panic); [rewrite next_urls_length, map_length, seq_length; reflexivity|]. rewrite next_urls_length. intros i L.
    destruct (C117_in_turn urls k n i NE K M L) as (u & E1 & E2). rewrite (nth_error_nth _ _ _ E1). symmetry. apply nth_error_nth. rewrite nth_error_map. rewrite (nth_error_nth' _ 0%nat) by (rewrite seq_length; exact L). rewrite seq_nth by exact L. cbn [option_map Nat.add]. fold n in E2. rewrite E2. reflexivity. }
  rewrite G. assert (P : Permutation (map (fun i => Z.to_nat ((k + Z.of_nat i + 1) mod Z.of_nat n)) (seq 0 n)) (seq 0 n)).
  { apply NoDup_Permutation_bis.
    - apply map_nodup; [apply seq_NoDup|]. intros a b Ha Hb E. apply in_seq in Ha, Hb. cbn [Nat.add] in Ha, Hb.
      pose proof (Z.mod_pos_bound (k + Z.of_nat a + 1) _ N). pose proof (Z.mod_pos_bound (k + Z.of_nat b + 1) _ N). apply Z2Nat.inj in E; try lia.
      pose proof (Z.div_mod (k + Z.of_nat a + 1) (Z.of_nat n) ltac:(lia)) as D1. pose proof (Z.div_mod (k + Z.of_nat b + 1) (Z.of_nat n) ltac:(lia)) as D2. rewrite E in D1.
      assert (Q : Z.of_nat n * ((k + Z.of_nat a + 1) / Z.of_nat n - (k + Z.of_nat b + 1) / Z.of_nat n) = Z.of_nat a - Z.of_nat b) by lia.
      assert (Q0 : (k + Z.of_nat a + 1) / Z.of_nat n - (k + Z.of_nat b + 1) / Z.of_nat n = 0) by nia. lia.
    - rewrite map_length, seq_length. lia.
    - intros x Hx. apply in_map_iff in Hx as (i & <- & _). apply in_seq. pose proof (Z.mod_pos_bound (k + Z.of_nat i + 1) _ N). lia. }
  apply Permutation_trans with (map (fun j => match nth_error urls j with Some u => Ok u | None => Panic end) (seq 0 n)).
  - rewrite <- (map_map (fun i => Z.to_nat ((k + Z.of_nat i + 1) mod Z.of_nat n)) (fun j => match nth_error urls j with Some u => Ok u | None => Panic end)). apply Permutation_map. exact P.
  - assert (E : map (fun j => match nth_error urls j with Some u => Ok u | None => Panic end) (seq 0 n) = map (@Ok str) urls); [|rewrite E; apply Permutation_refl].
    apply nth_ext with (d := Panic) (d' := Panic); rewrite !map_length, seq_length; [reflexivity|]. intros i L. apply nth_error_nth. rewrite nth_error_map, (nth_error_nth' _ 0%nat) by (rewrite seq_length; exact L). rewrite seq_nth by exact L. cbn [option_map Nat.add].
    destruct (nth_error urls i) as [u|] eqn:U; [|apply nth_error_None in U; unfold n in L; lia]. f_equal. symmetry. apply nth_error_nth. rewrite nth_error_map, U. reflexivity.
Qed.
(** It crashes exactly without relays, or once the counter is negative and no multiple of their number. *)
Theorem C117_next_crash urls s : - 9223372036854775808 <= s <= 9223372036854775807 ->
  (fst (next_url urls s) = Panic <-> urls = [] \/ ((s = 9223372036854775807 \/ s < -1) /\ (snd (next_url urls s)) mod Z.of_nat (length urls) <> 0)).
Proof.
  intro B0. unfold next_url. cbn [fst snd]. destruct urls as [|u0 r] eqn:EU; [split; [left; reflexivity|reflexivity]|]. rewrite <- EU. assert (NE : urls <> []) by (rewrite EU; discriminate). set (n := Z.of_nat (length urls)). assert (N : 0 < n) by (unfold n; rewrite EU; cbn [length]; lia).
  assert (W : (s = 9223372036854775807 \/ s < -1) <-> wrap_int (s + 1) < 0).
  { destruct (Z.eq_dec s 9223372036854775807) as [->|NS]; [split; [intros _; reflexivity|auto]|]. rewrite wrap_small by (unfold max_int; lia). lia. }
  destruct (Z_lt_ge_dec (wrap_int (s + 1)) 0) as [L|G].
  - unfold url_at. rewrite EU. rewrite <- EU. fold n. set (t := wrap_int (s + 1)) in *. assert (R : Z.rem t n = - ((- t) mod n)) by (replace t with (- - t) at 1 by lia; rewrite Z.rem_opp_l by lia; rewrite Z.rem_mod_nonneg by lia; reflexivity).
    assert (ZM : (- t) mod n = 0 <-> t mod n = 0) by (rewrite !Z.mod_divide by lia; apply Z.divide_opp_r). pose proof (Z.mod_pos_bound (- t) n N) as MB. rewrite R. destruct (Z.eq_dec ((- t) mod n) 0) as [E|E].
    + rewrite E. cbn [Z.opp Z.ltb Z.compare Z.to_nat]. rewrite EU. cbn [nth_error]. split; [discriminate|]. intros [Q|[_ Q]]; [discriminate|]. apply ZM in E. contradiction.
    + replace (- (- t mod n) <? 0) with true by lia. split; [|reflexivity]. intros _. right. split; [apply W; exact L|]. intro Q. apply ZM in Q. contradiction.
  - destruct (url_at_in urls (wrap_int (s + 1)) NE ltac:(lia)) as (u & E & _). rewrite E. split; [discriminate|]. intros [Q|[Q _]]; [contradiction|]. apply W in Q. lia.
Qed.
(** The counter starts anywhere and is not reduced: after its largest value the next call crashes. *)
Theorem C117_overflow_refuted : exists urls, next_urls 2 urls (9223372036854775807 - 1) = [Ok (B "wss://b"); Panic] /\ urls <> [].
Proof. exists [B "wss://a"; B "wss://b"; B "wss://c"]. split; [vm_compute; reflexivity|discriminate]. Qed.
Example C117_turns : next_urls 4 [B "wss://a"; B "wss://b"; B "wss://c"] 10 = [Ok (B "wss://c"); Ok (B "wss://a"); Ok (B "wss://b"); Ok (B "wss://c")].
Proof. vm_compute. reflexivity. Qed.
Print Assumptions C117_in_turn.
Print Assumptions C117_each_once.
Print Assumptions C117_next_crash.
Print Assumptions C117_overflow_refuted.

(** Calls at the same time: however they are interleaved, each that returns returns one of the relays, as long as the counter has room. *)
Definition past (p : nphase) : bool := match p with NWritten | NDone _ => true | _ => false end.
Lemma cnt_upd_new {X} (f : X -> bool) l i x y : nth_error l i = Some x -> f x = false -> f y = true -> cnt f (upd l i y) = S (cnt f l).
Proof. revert i. induction l as [|z l IH]; intros [|i] N F G; cbn in *; try discriminate; [assert (z = x) by congruence; subst z; rewrite F, G; reflexivity|]. rewrite (IH i) by assumption. destruct (f z); reflexivity. Qed.
Lemma cnt_upd_same {X} (f : X -> bool) l i x y : nth_error l i = Some x -> f x = f y -> cnt f (upd l i y) = cnt f l.
Proof. revert i. induction l as [|z l IH]; intros [|i] N F; cbn in *; try discriminate; [assert (z = x) by congruence; subst z; rewrite F; reflexivity|]. rewrite (IH i) by assumption. reflexivity. Qed.
Lemma cnt_snoc {X} (f : X -> bool) l x : cnt f (l ++ [x]) = (cnt f l + if f x then 1 else 0)%nat.
Proof. induction l as [|z l IH]; cbn [app cnt]; [destruct (f x); reflexivity|]. rewrite IH. destruct (f z); lia. Qed.
Lemma cnt_length {X} (f : X -> bool) l : (cnt f l <= length l)%nat.
Proof. induction l as [|z l IH]; cbn [cnt length]; [lia|]. destruct (f z); lia. Qed.
Lemma calls_grow urls l s s' : exec (next_step urls) l s = Some s' -> (length (ns_calls s) <= length (ns_calls s'))%nat.
Proof.
  revert s. induction l as [|a l IH]; intros s H; cbn [exec] in H; [assert (s = s') by congruence; subst; lia|]. destruct (next_step urls a s) as [s1|] eqn:E; [|discriminate]. apply IH in H. etransitivity; [|exact H]. clear H.
  destruct a as [|i]; cbn [next_step] in E; [injection E as <-; cbn [ns_calls]; rewrite app_length; lia|]. destruct (nth_error (ns_calls s) i) as [[]|]; try discriminate; injection E as <-; cbn [ns_calls]; rewrite upd_length; lia.
Qed.
Theorem C117_same_time urls k l s i r : urls <> [] -> 0 <= k -> exec (next_step urls) l (mkNS k []) = Some s -> k + Z.of_nat (length (ns_calls s)) <= 9223372036854775807 ->
  nth_error (ns_calls s) i = Some (NDone r) -> exists u, r = Ok u /\ In u urls.
Proof.
  intros NE K H M N.
  pose (J := fun s => k <= ns_serial s <= k + Z.of_nat (cnt past (ns_calls s)) /\ forall i p, nth_error (ns_calls s) i = Some p ->
     match p with NRead v => k <= v <= k + Z.of_nat (cnt past (ns_calls s)) | NDone r => exists u, r = Ok u /\ In u urls | _ => True end).
  assert (G : J s); [|destruct G as [_ G]; exact (G i _ N)]. clear i r N.
  assert (ST : forall l s0, J s0 -> exec (next_step urls) l s0 = Some s -> J s); [|apply (ST l (mkNS k [])); [|exact H]; split; [cbn; lia|intros [|i] p Q; discriminate]].
  clear l H. intros l. induction l as [|a l IH]; intros s0 J0 H; cbn [exec] in H; [assert (s0 = s) by congruence; subst; exact J0|]. destruct (next_step urls a s0) as [s1|] eqn:E; [|discriminate]. apply (IH s1); [|exact H].
  pose proof (calls_grow _ _ _ _ H) as GL. clear IH H. destruct J0 as [J1 J2]. destruct a as [|i]; cbn [next_step] in E.
  - assert (s1 = mkNS (ns_serial s0) (ns_calls s0 ++ [NStart])) by congruence. subst s1. unfold J. cbn [ns_serial ns_calls]. rewrite cnt_snoc. cbn [past]. rewrite Nat.add_0_r. split; [exact J1|]. intros j p Q. apply nth_snoc in Q as [Q|[_ ->]]; [exact (J2 j p Q)|exact Logic.I].
  - destruct (nth_error (ns_calls s0) i) as [p|] eqn:EN; [|discriminate]. pose proof (J2 i p EN) as JP. destruct p as [|v| |r]; try discriminate.
    + assert (s1 = mkNS (ns_serial s0) (upd (ns_calls s0) i (NRead (ns_serial s0)))) by congruence. subst s1. unfold J. cbn [ns_serial ns_calls]. rewrite (cnt_upd_same past _ i NStart) by (auto; exact EN). split; [exact J1|]. intros j p Q. apply nth_upd in Q as [[_ ->]|[_ Q]]; [exact J1|exact (J2 j p Q)].
    + assert (s1 = mkNS (wrap_int (v + 1)) (upd (ns_calls s0) i NWritten)) by congruence. subst s1. cbn [ns_calls] in GL. rewrite upd_length in GL. pose proof (cnt_length past (upd (ns_calls s0) i NWritten)) as CL. rewrite upd_length in CL. unfold J. cbn [ns_serial ns_calls]. rewrite (cnt_upd_new past _ i (NRead v)) in * by (auto; exact EN).
      rewrite wrap_small by (unfold max_int; lia). split; [lia|]. intros j p Q. apply nth_upd in Q as [[_ ->]|[_ Q]]; [exact Logic.I|]. specialize (J2 j p Q). destruct p; try exact J2. lia.
    + assert (s1 = mkNS (ns_serial s0) (upd (ns_calls s0) i (NDone (url_at urls (ns_serial s0))))) by congruence. subst s1. unfold J. cbn [ns_serial ns_calls]. rewrite (cnt_upd_same past _ i NWritten) by (auto; exact EN). split; [exact J1|]. intros j p Q. apply nth_upd in Q as [[_ ->]|[_ Q]]; [|exact (J2 j p Q)].
      destruct (url_at_in urls (ns_serial s0) NE ltac:(lia)) as (u & E1 & E2). exists u. split; [exact E1|]. eapply nth_error_In. exact E2.
Qed.
(** But two calls at the same time may be given the same relay while another is passed over. *)
Theorem C117_same_time_refuted : exists l s, exec (next_step [B "wss://a"; B "wss://b"]) l (mkNS 0 []) = Some s /\ ns_calls s = [NDone (Ok (B "wss://b")); NDone (Ok (B "wss://b"))].
Proof. exists [XCall; XCall; XGo 0; XGo 1; XGo 0; XGo 1; XGo 0; XGo 1]. eexists. split; [vm_compute; reflexivity|reflexivity]. Qed.
Example C117_same_time_example : exists s, exec (next_step [B "wss://a"; B "wss://b"]) [XCall; XGo 0; XCall; XGo 1; XGo 0; XGo 0; XGo 1; XGo 1] (mkNS 7 []) = Some s /\ length (ns_calls s) = 2%nat /\ nth_error (ns_calls s) 1 = Some (NDone (Ok (B "wss://a"))).
Proof. eexists. split; [vm_compute; reflexivity|split; reflexivity]. Qed.
Print Assumptions C117_same_time.
Print Assumptions C117_same_time_refuted.

(** ** SearchUsers *)
(** One profile for every event that came, in their order, of the author of that event and with that event; the fields are those of its content if it is a profile. *)
Theorem C117_search unmarshal fetched query i : let found := search_users unmarshal fetched query in
  length found = length (fetched (search_filter query)) /\
  forall p, nth_error found i = Some p -> exists e, nth_error (fetched (search_filter query)) i = Some e /\ pm_event p = Some e /\ pm_pubkey p = ev_pubkey e /\ pm_fields p = (if ev_kind e =? 0 then fst (unmarshal (ev_content e)) else no_fields) /\ pm_nip05_valid p = false.
Proof.
  cbv zeta. unfold search_users. rewrite map_length. split; [reflexivity|]. intros p H. rewrite nth_error_map in H. destruct (nth_error (fetched (search_filter query)) i) as [e|]; [|discriminate]. exists e. split; [reflexivity|]. cbn [option_map] in H. unfold parse_metadata in H.
  destruct (ev_kind e =? 0); [destruct (unmarshal (ev_content e)) as [f ok]|]; cbn [fst] in H; assert (Q := f_equal (fun o => match o with Some x => x | None => p end) H); cbn in Q; subst p; repeat split.
Qed.
(** What it asks for: at most ten from each relay, by the text alone. *)
Theorem C117_search_asks query : f_search (search_filter query) = query /\ f_limit (search_filter query) = 10%Z /\ f_limit_zero (search_filter query) = false /\ forall e, filter_matches (search_filter query) (Some e) = true.
Proof. do 3 (split; [reflexivity|]). intro e. apply filter_matches_spec. unfold match_spec_notime. cbn. repeat split; intros; try discriminate; contradiction. Qed.
(** No kind is asked for: a relay that answers with any event it was asked for, such as a note, has it listed among the users. *)
Definition a_note : event := mkEvent (B "id") (B "pk") 5 1 [] (B "buy now") (B "sig").
Theorem C117_search_refuted : exists fetched query p, (forall f e, In e (fetched f) -> filter_matches f (Some e) = true) /\ In p (search_users (fun _ => (no_fields, true)) fetched query) /\ exists e, pm_event p = Some e /\ ev_kind e <> 0.
Proof.
  exists (fun f => if filter_matches f (Some a_note) then [a_note] else []), (B "buy"). eexists. split; [|split].
  - intros f e H. destruct (filter_matches f (Some a_note)) eqn:E; [destruct H as [<-|[]]; exact E|destruct H].
  - left. reflexivity.
  - eexists. split; [reflexivity|discriminate].
Qed.
Print Assumptions C117_search.
Print Assumptions C117_search_asks.
Print Assumptions C117_search_refuted.

(** ** PerQueryLimitInBatch *)
(** [k] is t / n^(2/5) rounded up. *)
Definition rounded_up (t n k : Z) : Prop := t ^ 5 <= k ^ 5 * n ^ 2 /\ forall j, 0 <= j < k -> j ^ 5 * n ^ 2 < t ^ 5.
Lemma ceil_from_spec fuel k t n : 0 <= k -> 0 < n -> 0 <= t -> t <= k + Z.of_nat fuel -> (forall j, 0 <= j < k -> j ^ 5 * n ^ 2 < t ^ 5) -> k <= ceil_from fuel k t n /\ rounded_up t n (ceil_from fuel k t n).
Proof.
  revert k. induction fuel as [|f IH]; intros k K N T F H; cbn [ceil_from].
  - split; [lia|]. split; [|exact H]. transitivity (k ^ 5); [apply Z.pow_le_mono_l; lia|]. assert (0 <= k ^ 5) by (apply Z.pow_nonneg; lia). assert (1 <= n ^ 2) by (pose proof (Z.pow_pos_nonneg n 2 N ltac:(lia)); lia). nia.
  - destruct (t ^ 5 <=? k ^ 5 * n ^ 2) eqn:E; [split; [lia|]; split; [lia|exact H]|]. destruct (IH (k + 1) ltac:(lia) N T ltac:(lia)) as [I1 I2]; [|split; [lia|exact I2]].
    intros j J. destruct (Z.eq_dec j k) as [->|NJ]; [lia|]. apply H. lia.
Qed.
Lemma ceil_spec t n : 0 <= t -> 0 < n -> 0 <= ceil_div_pow t n /\ rounded_up t n (ceil_div_pow t n).
Proof. intros T N. apply ceil_from_spec; try lia. Qed.
(** A limit is kept for a single query and while limit times queries is below fifty; else it is divided by the 0.4th power of the number of queries, rounded up, and at least four. *)
Theorem C117_limit total queries : 0 <= total -> 0 < queries -> total * queries <= 9223372036854775807 ->
  (queries = 1 \/ total * queries < 50 -> per_query_limit total queries = total) /\
  (queries <> 1 -> 50 <= total * queries -> exists k, rounded_up total queries k /\ 0 <= k /\ per_query_limit total queries = Z.max 4 k).
Proof.
  intros T Q M. unfold per_query_limit. rewrite wrap_small by (unfold max_int; nia). split.
  - intros [->|H]; [reflexivity|]. replace (total * queries <? 50) with true by lia. rewrite orb_true_r. reflexivity.
  - intros N1 H. replace (queries =? 1) with false by lia. replace (total * queries <? 50) with false by lia. cbn [orb]. exists (ceil_div_pow total queries). destruct (ceil_spec total queries T Q). auto.
Qed.
Lemma pow5_le a b : 0 <= a -> 0 <= b -> a ^ 5 <= b ^ 5 -> a <= b.
Proof. intros A C H. destruct (Z_le_gt_dec a b) as [L|G]; [exact L|]. exfalso. assert (b ^ 5 < a ^ 5) by (apply Z.pow_lt_mono_l; lia). lia. Qed.
(** From four up no query gets a larger limit than the whole, and together they get at least the whole. *)
Theorem C117_limit_shared_partial total queries : 4 <= total -> 0 < queries -> total * queries <= 9223372036854775807 -> 
  per_query_limit total queries <= total /\ total <= queries * per_query_limit total queries.
Proof.
  intros T Q M. destruct (C117_limit total queries ltac:(lia) Q M) as [A C]. destruct (Z.eq_dec queries 1) as [E|E]; [rewrite A by auto; subst; lia|]. destruct (Z_lt_ge_dec (total * queries) 50) as [L|G]; [rewrite A by auto; nia|].
  destruct (C E ltac:(lia)) as (k & [R1 R2] & K & ->). assert (Q2 : 1 <= queries ^ 2) by (change (queries ^ 2) with (queries * (queries * 1)); nia). split.
  - apply Z.max_lub; [lia|]. destruct (Z_le_gt_dec k total) as [L|G2]; [exact L|]. specialize (R2 total ltac:(lia)). assert (0 <= total ^ 5) by (apply Z.pow_nonneg; lia). nia.
  - assert (KT : total <= queries * k); [|nia]. apply pow5_le; [lia|nia|]. rewrite Z.pow_mul_l. etransitivity; [exact R1|]. rewrite Z.mul_comm. apply Z.mul_le_mono_nonneg_r; [apply Z.pow_nonneg; lia|]. apply Z.pow_le_mono_r; lia.
Qed.
(** With more queries of the same total no query gets a larger limit. *)
Theorem C117_limit_falls total q q' : 4 <= total -> 0 < q <= q' -> total * q' <= 9223372036854775807 -> per_query_limit total q' <= per_query_limit total q.
Proof.
  intros T [Q L] M. assert (M1 : total * q <= 9223372036854775807) by nia. destruct (C117_limit total q ltac:(lia) Q M1) as [A C]. destruct (Z.eq_dec q 1) as [E|E]; [rewrite A by auto; apply (C117_limit_shared_partial total q'); lia|].
  destruct (Z_lt_ge_dec (total * q) 50) as [S|G]; [rewrite (A (or_intror S)); apply (C117_limit_shared_partial total q'); lia|]. destruct (C E ltac:(lia)) as (k & [R1 R2] & K & ->).
  destruct (C117_limit total q' ltac:(lia) ltac:(lia) M) as [_ C']. destruct (C' ltac:(lia) ltac:(nia)) as (k' & [R1' R2'] & K' & ->). apply Z.max_le_compat_l. destruct (Z_le_gt_dec k' k) as [G1|G1]; [exact G1|]. specialize (R2' k ltac:(lia)).
  assert (q ^ 2 <= q' ^ 2) by (apply Z.pow_le_mono_l; lia). assert (0 <= k ^ 5) by (apply Z.pow_nonneg; lia). nia.
Qed.
(** Below four a query may ask for more than the whole limit; and a larger total can give each query less. *)
Theorem C117_limit_shared_refuted : exists total queries, 0 < total /\ total < per_query_limit total queries.
Proof. exists 1, 50. split; [lia|]. vm_compute. reflexivity. Qed.
Theorem C117_limit_rises_refuted : exists t t' q, t < t' /\ per_query_limit t' q < per_query_limit t q.
Proof. exists 24, 25, 2. split; [lia|]. vm_compute. reflexivity. Qed.
Example C117_limit_example : map (fun '(t, q) => per_query_limit t q) [(100, 1); (100, 2); (100, 50); (100, 1000); (10, 4); (1000, 32); (0, 7)] = [100; 76; 21; 7; 10; 250; 0].
Proof. vm_compute. reflexivity. Qed.
Print Assumptions C117_limit.
Print Assumptions C117_limit_shared_partial.
Print Assumptions C117_limit_falls.
Print Assumptions C117_limit_shared_refuted.
Print Assumptions C117_limit_rises_refuted.
