(** C107: fetching one event by its code. *)
From Coq Require Import Permutation.
From Verif Require Import Base FilterModel FilterProofs EventModel Bech32Model Bech32Proofs Nip19Model Nip19Proofs StoreModel TrackModel ListsModel SpecificModel.
Import ListNotations.

(** ** What may be returned: of some events the newest, and of equally new ones the earliest in the list. *)
Definition newest_first (l : list event) (e : event) : Prop :=
  exists a b, l = a ++ e :: b /\ (forall x, In x a -> (ev_created_at x < ev_created_at e)%Z) /\ (forall x, In x b -> (ev_created_at x <= ev_created_at e)%Z).
(** What the two attempts deliver: without waiting the first event of all; else every event of the first attempt and one of the second. *)
Definition candidates {A} (slow : bool) (first second : list A) : list A := if slow then first ++ firstn 1 second else firstn 1 (first ++ second).
(** Which event a pointer names. *)
Definition has_address (pk : str) (kind : Z) (d : str) (e : event) : Prop := ev_pubkey e = pk /\ ev_kind e = kind /\ exists rest, In (B "d" :: d :: rest) (ev_tags e).
Definition named (p : pointer) (e : event) : Prop :=
  match p with
  | PEvent v => ev_id e = ep_id v
  | PEntity v => has_address (en_pubkey v) (en_kind v) (en_identifier v) e
  | PProfile _ => True
  end.
Definition author_of (p : pointer) : str := match p with PEvent v => ep_author v | PEntity v => en_pubkey v | PProfile _ => [] end.
Definition hinted (p : pointer) : list str := match p with PEvent v => relays_of (ep_relays v) | PEntity v => relays_of (en_relays v) | PProfile _ => [] end.

(** What Go's slices.SortFunc promises: a permutation; for a strict weak order no later element is smaller than an earlier one. *)
Definition strict_weak {A} (lt : A -> A -> Prop) : Prop :=
  (forall x, ~ lt x x) /\ (forall x y z, lt x y -> lt y z -> lt x z) /\ (forall x y z, lt x z -> lt x y \/ lt y z).
Definition sorts (sort : (str -> str -> Z) -> list str -> list str) : Prop :=
  forall cmp l, Permutation l (sort cmp l) /\
    (strict_weak (fun x y => (cmp x y < 0)%Z) -> forall i j x y, (i < j)%nat -> nth_error (sort cmp l) i = Some x -> nth_error (sort cmp l) j = Some y -> ~ (cmp y x < 0)%Z).

Lemma attempt_slow l : forall r s, exists r', attempt true l r s = (r', s ++ map snd l, false) /\
  (forall a x b, r = Some x -> newest_first (a ++ x :: b) x -> exists y, r' = Some y /\ newest_first ((a ++ x :: b) ++ map fst l) y) /\
  (r = None -> (l = [] /\ r' = None) \/ exists y, r' = Some y /\ newest_first (map fst l) y).
Proof.
  induction l as [|[e u] l IH]; intros r s; cbn [attempt negb].
  - exists r. rewrite !app_nil_r. split; [reflexivity|]. split; [|intro H; left; split; [reflexivity|exact H]]. intros a x b H N. exists x. rewrite app_nil_r. split; assumption.
  - set (r1 := match r with None => Some e | Some x => if (ev_created_at e >? ev_created_at x)%Z then Some e else r end). destruct (IH r1 (s ++ [u])) as (r' & E & S & N). exists r'. rewrite E. cbn [map snd fst]. rewrite <- app_assoc. split; [reflexivity|]. split.
    + intros a x b H (a' & b' & Q & NA & NB). subst r r1. rewrite Z.gtb_ltb in S, E. destruct (Z.ltb_spec (ev_created_at x) (ev_created_at e)) as [L|L].
      * destruct (S (a ++ x :: b) e [] eq_refl) as (y & Hy & NF); [|exists y; split; [exact Hy|]; rewrite <- app_assoc in NF; exact NF].
        exists (a ++ x :: b), []. split; [reflexivity|]. split; [|intros z []]. intros z Hz. rewrite Q in Hz. apply in_app_iff in Hz as [Hz|[Hz|Hz]]; [apply NA in Hz; lia|subst z; exact L|apply NB in Hz; lia].
      * destruct (S a x (b ++ [e]) eq_refl) as (y & Hy & NF); [|exists y; split; [exact Hy|]; replace ((a ++ x :: b) ++ e :: map fst l) with ((a ++ x :: b ++ [e]) ++ map fst l) by (rewrite <- !app_assoc; cbn; rewrite <- app_assoc; reflexivity); exact NF].
        exists a', (b' ++ [e]). split; [rewrite app_comm_cons, app_assoc, Q, <- app_assoc; reflexivity|]. split; [exact NA|]. intros z Hz. apply in_app_iff in Hz as [Hz|[Hz|[]]]; [apply NB; exact Hz|subst z; exact L].
    + intro H. subst r r1. right. destruct (S [] e [] eq_refl) as (y & Hy & NF); [|exists y; split; assumption]. exists [], []. split; [reflexivity|]. split; intros z [].
Qed.
Lemma attempt_quick l r s : attempt false l r s =
  match l with [] => (r, s, false) | (e, u) :: _ => (Some (match r with None => e | Some x => if (ev_created_at e >? ev_created_at x)%Z then e else x end), s ++ [u], true) end.
Proof. destruct l as [|[e u] l]; cbn [attempt negb]; [reflexivity|]. destruct r as [x|]; [destruct (_ >? _)%Z|]; reflexivity. Qed.
Lemma newest_one e : newest_first [e] e.
Proof. exists [], []. split; [reflexivity|]. split; intros z []. Qed.
Lemma newest_in l e : newest_first l e -> In e l.
Proof. intros (a & b & Q & _). subst l. apply in_app_iff. right. left. reflexivity. Qed.
(** There is exactly one such event in each list that is not empty, as a position. *)
Lemma newest_unique l e1 e2 : newest_first l e1 -> newest_first l e2 -> e1 = e2.
Proof.
  intros (a1 & b1 & Q1 & A1 & B1) (a2 & b2 & Q2 & A2 & B2). rewrite Q1 in Q2. clear Q1. revert a2 A2 Q2. induction a1 as [|x a1 IH]; intros [|y a2] A2 Q2; cbn [app] in Q2; injection Q2 as E Q2.
  - exact E.
  - exfalso. subst y. assert (In e2 b1) by (rewrite Q2; apply in_app_iff; right; left; reflexivity). apply B1 in H. specialize (A2 e1 (or_introl eq_refl)). lia.
  - exfalso. subst x. assert (In e1 b2) by (rewrite <- Q2; apply in_app_iff; right; left; reflexivity). apply B2 in H. specialize (A1 e2 (or_introl eq_refl)). lia.
  - apply (IH (fun z Hz => A1 z (or_intror Hz)) a2 (fun z Hz => A2 z (or_intror Hz)) Q2).
Qed.

Section Spec.
Variable normalize : str -> str.
Variable outbox : str -> list str.
Variable stored : nfilter -> list event.
Variable many : nat -> list str -> nfilter -> list (event * str).
Variable sort : (str -> str -> Z) -> list str -> list str.
Notation fetch := (fetch_specific normalize outbox stored many sort).

(** Which relays the first attempt goes to. *)
Definition first_relays (p : pointer) (ji : list str) (next : nat -> str) : list str :=
  append_unique_items (pl_relays (plan_of p ji next)) (match author_of p with [] => [] | a => outbox a end).
Definition first_priority (p : pointer) : list str := append_unique_items (hinted p) (match author_of p with [] => [] | a => outbox a end).

(** ** The local store answers without any relay. *)
Theorem C107_local p w ji next now e r : stored (pl_filter (plan_of p ji next)) = e :: r -> fetch p w false ji next now = Ok (mkFound (Some e) [] [] [] []).
Proof. intro H. unfold fetch_specific. rewrite H. reflexivity. Qed.

Lemma author_plan p ji next : pl_author (plan_of p ji next) = author_of p /\ pl_priority (plan_of p ji next) = hinted p.
Proof. destruct p; split; reflexivity. Qed.

(** ** What the relays answer. Without a local answer: it crashes exactly when the author's key has between 1 and 13 characters. *)
Theorem C107_crash p w skip ji next now : (skip = true \/ stored (pl_filter (plan_of p ji next)) = []) -> (fetch p w skip ji next now = Panic <-> (0 < length (author_of p) < 14)%nat).
Proof.
  intro L. unfold fetch_specific. assert (E : (if skip then [] else stored (pl_filter (plan_of p ji next))) = []) by (destruct skip; [reflexivity|]; destruct L as [L|L]; [discriminate|exact L]). rewrite E.
  destruct (author_plan p ji next) as [AP _]. rewrite AP. destruct (author_of p) as [|c a] eqn:AE.
  - cbn [obind length]. destruct (attempt w _ None []) as [[r1 s1] stop]. destruct stop.
    + destruct r1; split; intro H; try discriminate; lia.
    + destruct (attempt false _ r1 s1) as [[r2 s2] stop2]. destruct r2; split; intro H; try discriminate; lia.
  - destruct (Nat.ltb_spec (length (c :: a)) 14) as [Lt|Ge]; cbn [obind].
    + split; [intros _; cbn [length]; cbn [length] in Lt; lia|reflexivity].
    + destruct (attempt w _ None []) as [[r1 s1] stop]. destruct stop.
      * destruct r1; split; intro H; try discriminate; lia.
      * destruct (attempt false _ r1 s1) as [[r2 s2] stop2]. destruct r2; split; intro H; try discriminate; lia.
Qed.

(** ** Else it is the newest of the candidates, with the relay of each of them; an error if there is none. *)
Theorem C107_result p w skip ji next now : (skip = true \/ stored (pl_filter (plan_of p ji next)) = []) -> ~ (0 < length (author_of p) < 14)%nat ->
  let pl := plan_of p ji next in let relays := first_relays p ji next in
  let got1 := many 0 relays (pl_filter pl) in let got2 := many 1 (pl_fallback pl) (pl_filter pl) in
  let cs := candidates w got1 got2 in
  (cs = [] -> fetch p w skip ji next now = Err) /\
  (cs <> [] -> exists e, newest_first (map fst cs) e /\
     fetch p w skip ji next now = Ok (mkFound (Some e) (sort (by_priority (first_priority p)) (map snd cs))
       (if negb w && negb (match got1 with [] => true | _ => false end) then [relays] else [relays; pl_fallback pl])
       (match author_of p with [] => [] | a => map (fun r => (a, normalize r, LastInHint, now)) (hinted p) end)
       (if skip then [] else [e]))).
Proof.
  intros L A pl relays got1 got2 cs.
  assert (E : (if skip then [] else stored (pl_filter pl)) = []) by (destruct skip; [reflexivity|]; destruct L as [L|L]; [discriminate|exact L]).
  assert (F : fetch p w skip ji next now =
    let '(r1, s1, stop) := attempt w got1 None [] in
    let '(r2, s2, asked) := if stop then (r1, s1, [relays]) else let '(r2, s2, _) := attempt false got2 r1 s1 in (r2, s2, [relays; pl_fallback pl]) in
    match r2 with None => Err | Some e => Ok (mkFound (Some e) (sort (by_priority (first_priority p)) s2) asked (match author_of p with [] => [] | a => map (fun r => (a, normalize r, LastInHint, now)) (hinted p) end) (if skip then [] else [e])) end).
  { unfold fetch_specific. fold pl. rewrite E. destruct (author_plan p ji next) as [AP PP]. fold pl in AP, PP. rewrite AP. unfold got1, got2, relays, first_relays, first_priority. fold pl. rewrite PP.
    destruct (author_of p) as [|c a] eqn:AE; cbn [obind].
    - reflexivity.
    - replace (Nat.ltb (length (c :: a)) 14) with false by (symmetry; apply Nat.ltb_ge; cbn [length] in *; lia). reflexivity. }
  rewrite F. clear F. subst cs. unfold candidates. destruct w.
  - destruct (attempt_slow got1 None []) as (r1 & E1 & _ & N1). rewrite E1. cbn [app]. rewrite attempt_quick. specialize (N1 eq_refl). cbn [negb andb]. destruct N1 as [[G ->]|(y & -> & NF)].
    + rewrite G. cbn [app map]. destruct got2 as [|[e u] got2']; cbn [firstn]; [split; [reflexivity|congruence]|]. split; [discriminate|]. intros _. exists e. split; [apply newest_one|reflexivity].
    + assert (NE : got1 <> []) by (intro Q; rewrite Q in NF; destruct NF as (a & b & Q2 & _); destruct a; discriminate). split; [intro Q; apply app_eq_nil in Q as [Q _]; contradiction|]. intros _. rewrite !map_app.
      destruct got2 as [|[e u] got2']; cbn [firstn map app].
      * exists y. rewrite app_nil_r. split; [exact NF|]. rewrite !app_nil_r. reflexivity.
      * destruct NF as (a & b & Q & NA & NB). cbn [fst snd]. rewrite Q. rewrite Z.gtb_ltb. destruct (Z.ltb_spec (ev_created_at y) (ev_created_at e)) as [Lt|Ge].
        { exists e. split; [|reflexivity]. exists (a ++ y :: b), []. split; [reflexivity|]. split; [|intros z []]. intros z Hz. apply in_app_iff in Hz as [Hz|[Hz|Hz]]; [apply NA in Hz; lia|subst z; exact Lt|apply NB in Hz; lia]. }
        { exists y. split; [|reflexivity]. exists a, (b ++ [e]). split; [rewrite <- app_assoc; reflexivity|]. split; [exact NA|]. intros z Hz. apply in_app_iff in Hz as [Hz|[Hz|[]]]; [apply NB; exact Hz|subst z; exact Ge]. }
  - rewrite attempt_quick. destruct got1 as [|[e u] got1']; cbn [app firstn negb andb].
    + rewrite attempt_quick. destruct got2 as [|[e u] got2']; cbn [firstn]; [split; [reflexivity|congruence]|]. split; [discriminate|]. intros _. exists e. split; [apply newest_one|reflexivity].
    + split; [discriminate|]. intros _. exists e. split; [apply newest_one|reflexivity].
Qed.

(** ** What is returned is what the pointer names, as long as the store and the relays answer with what they were asked for. *)
Lemma plan_matches p ji next e : filter_matches (pl_filter (plan_of p ji next)) (Some e) = true <-> named p e.
Proof.
  rewrite filter_matches_spec. unfold match_spec_notime. destruct p as [v|v|v]; cbn [plan_of pl_filter f_ids f_kinds f_authors f_tags f_since f_until empty_filter named].
  - split; [intros _; exact I|]. intros _. split; [split; [|split; [|split]]; try (intros l Q; discriminate)|split; intros s Q; discriminate]. intros k vs [].
  - split.
    + intros ((H & _) & _). specialize (H _ eq_refl). destruct H as [H|[]]. symmetry. exact H.
    + intro H. split; [split; [|split; [|split]]|split; intros s Q; discriminate]; try (intros l Q; discriminate); [|intros k vs []]. intros l Q. assert (l = [ep_id v]) by congruence. subst l. left. symmetry. exact H.
  - unfold has_address. split.
    + intros ((_ & K & Au & T) & _). specialize (K _ eq_refl). specialize (Au _ eq_refl). destruct K as [K|[]], Au as [Au|[]]. destruct (T _ _ (or_introl eq_refl)) as (t & d & rest & I & Q & [D|[]]). subst. split; [congruence|]. split; [congruence|]. exists rest. exact I.
    + intros (Au & K & rest & I). split; [split; [|split; [|split]]|split; intros s Q; discriminate]; try (intros l Q; discriminate).
      * intros l Q. assert (l = [en_kind v]) by congruence. subst l. left. symmetry. exact K.
      * intros l Q. assert (l = [en_pubkey v]) by congruence. subst l. left. symmetry. exact Au.
      * intros k vs [Q|[]]. injection Q as <- <-. do 3 eexists. split; [exact I|]. split; [reflexivity|]. left. reflexivity.
Qed.
(** The filter asked for names what the pointer names and nothing besides: no time, no search, no limit. *)
Theorem C107_filter p ji next : let f := pl_filter (plan_of p ji next) in
  (forall e, filter_matches f (Some e) = true <-> named p e) /\ f_since f = None /\ f_until f = None /\ f_limit f = 0%Z /\ f_search f = [] /\ f_limit_zero f = false.
Proof. split; [intro e; apply plan_matches|]. destruct p; repeat split. Qed.
Definition honest (f : nfilter) : Prop := (forall e, In e (stored f) -> filter_matches f (Some e) = true) /\ (forall n us e u, In (e, u) (many n us f) -> filter_matches f (Some e) = true).
Theorem C107_named p w skip ji next now r : honest (pl_filter (plan_of p ji next)) -> fetch p w skip ji next now = Ok r -> exists e, fo_event r = Some e /\ named p e.
Proof.
  intros [HS HM] H. destruct (stored (pl_filter (plan_of p ji next))) as [|e0 r0] eqn:ES.
  1: assert (L : skip = true \/ stored (pl_filter (plan_of p ji next)) = []) by (right; exact ES).
  2: destruct skip; [assert (L : true = true \/ stored (pl_filter (plan_of p ji next)) = []) by (left; reflexivity)|].
  3: { rewrite (C107_local p w ji next now e0 r0 ES) in H. assert (r = mkFound (Some e0) [] [] [] []) by congruence. subst r. exists e0. split; [reflexivity|]. apply (plan_matches p ji next). apply HS. left. reflexivity. }
  all: assert (A : ~ (0 < length (author_of p) < 14)%nat) by (intro A; pose proof (C107_crash p w _ ji next now L) as [_ Cr]; rewrite (Cr A) in H; discriminate).
  all: destruct (C107_result p w _ ji next now L A) as [R1 R2].
  all: match type of R1 with (?cs = [] -> _) => destruct cs as [|c0 cr] eqn:CE end; [rewrite R1 in H by reflexivity; discriminate|].
  all: destruct R2 as (e & NF & Q); [discriminate|]; rewrite Q in H; match type of H with Ok ?x = Ok ?y => assert (y = x) by congruence; subst y end; exists e; split; [reflexivity|].
  all: apply (plan_matches p ji next); apply newest_in in NF; rewrite <- CE in NF; apply in_map_iff in NF as ([e' u] & Q1 & I); cbn [fst] in Q1; subst e'.
  all: assert (IA : In (e, u) (many 0 (first_relays p ji next) (pl_filter (plan_of p ji next)) ++ many 1 (pl_fallback (plan_of p ji next)) (pl_filter (plan_of p ji next)))).
  1, 3: unfold candidates in I; rewrite in_app_iff; destruct w; [apply in_app_iff in I as [I|I]; [left; exact I|right]; destruct (many 1 _ _) as [|g gs]; [destruct I|]; cbn [firstn] in I; destruct I as [I|[]]; left; exact I|].
  1, 2: rewrite <- in_app_iff; destruct (_ ++ _) as [|g gs]; [destruct I|]; cbn [firstn] in I; destruct I as [I|[]]; left; exact I.
  all: apply in_app_iff in IA as [IA|IA]; apply HM in IA; exact IA.
Qed.

(** ** Who is asked: always every relay the pointer names and one general relay; the author's relays up to the first that is there already. *)
Lemma unique_grows l : forall arr x, In x arr -> In x (append_unique_items arr l).
Proof. induction l as [|y l IH]; intros arr x H; cbn [append_unique_items]; [exact H|]. destruct (smem y arr); [exact H|]. apply IH. apply in_app_iff. left. exact H. Qed.
Lemma unique_one arr x : In x (append_unique_items arr [x]).
Proof. cbn [append_unique_items]. destruct (smem x arr) eqn:E; [apply smem_In; exact E|]. apply in_app_iff. right. left. reflexivity. Qed.
Lemma unique_all l : NoDup l -> forall arr, (forall x, In x l -> ~ In x arr) -> append_unique_items arr l = arr ++ l.
Proof.
  induction 1 as [|y l NI ND IH]; intros arr F; cbn [append_unique_items]; [rewrite app_nil_r; reflexivity|].
  destruct (smem y arr) eqn:E; [exfalso; apply (F y); [left; reflexivity|apply smem_In; exact E]|]. rewrite IH; [rewrite <- app_assoc; reflexivity|].
  intros x Hx Q. apply in_app_iff in Q as [Q|[Q|[]]]; [apply (F x); [right; exact Hx|exact Q]|subst; contradiction].
Qed.
Theorem C107_asked p ji next : (forall x, In x (hinted p) -> In x (first_relays p ji next)) /\
  (match p with PProfile _ => False | _ => True end -> In (next 0) (first_relays p ji next)).
Proof.
  split.
  - intros x Hx. apply unique_grows. destruct p; [destruct Hx| |]; apply unique_grows; exact Hx.
  - intro K. apply unique_grows. destruct p; [destruct K| |]; apply unique_one.
Qed.
(** The second attempt: for an event the relays that are good at ids and one general relay, for an address two general relays. *)
Theorem C107_second_attempt p ji next : match p with
  | PEvent _ => forall x, In x (pl_fallback (plan_of p ji next)) <-> In x ji \/ x = next 1%nat
  | PEntity _ => pl_fallback (plan_of p ji next) = [next 1%nat; next 2%nat]
  | PProfile _ => pl_fallback (plan_of p ji next) = []
  end.
Proof.
  destruct p as [v|v|v]; cbn [plan_of pl_fallback]; try reflexivity. intro x. split.
  - cbn [append_unique_items]. destruct (smem (next 1%nat) ji); [auto|]. intro Q. apply in_app_iff in Q as [Q|[Q|[]]]; [auto|right; symmetry; exact Q].
  - intros [Q|Q]; [apply unique_grows; exact Q|rewrite Q; apply unique_one].
Qed.
Theorem C107_author_relays_partial p ji next x : In x (outbox (author_of p)) -> author_of p <> [] -> NoDup (outbox (author_of p)) ->
  (forall y, In y (outbox (author_of p)) -> ~ In y (hinted p) /\ y <> next 0) -> In x (first_relays p ji next).
Proof.
  intros Hx NE ND F. unfold first_relays. destruct (author_of p) as [|c a] eqn:AE; [congruence|]. rewrite unique_all; [apply in_app_iff; right; exact Hx|exact ND|]. intros y Hy Q. destruct (F y Hy) as [F1 F2].
  assert (KK : In y (hinted p) \/ y = next 0); [|destruct KK as [KK|KK]; [exact (F1 KK)|exact (F2 KK)]]. destruct p as [v|v|v]; cbn [plan_of pl_relays hinted append_unique_items] in Q |- *; [destruct Q| |]; (destruct (smem _ _); [left; exact Q|]; apply in_app_iff in Q as [Q|[Q|[]]]; [left; exact Q|right; congruence]).
Qed.

End Spec.

(** ** The relays returned: each time a candidate came from a relay, that relay; the ones of the pointer and its author last. *)
Lemma by_priority_lt pr a b : (by_priority pr a b < 0)%Z <-> ~ In a pr /\ In b pr.
Proof.
  unfold by_priority. rewrite <- !smem_In. destruct (smem a pr), (smem b pr); cbn; split; intro H; try lia; try (split; [discriminate|reflexivity]); try reflexivity; try (destruct H as [H1 H2]; congruence).
Qed.
Lemma by_priority_weak pr : strict_weak (fun x y => (by_priority pr x y < 0)%Z).
Proof.
  split; [|split].
  - intros x H. apply by_priority_lt in H. tauto.
  - intros x y z H1 H2. apply by_priority_lt in H1, H2. tauto.
  - intros x y z H. apply by_priority_lt in H. rewrite !by_priority_lt. destruct (smem y pr) eqn:E; [apply smem_In in E; tauto|]. assert (~ In y pr) by (rewrite <- smem_In; congruence). tauto.
Qed.
Theorem C107_relays sort pr l : sorts sort -> Permutation l (sort (by_priority pr) l) /\
  exists a b, sort (by_priority pr) l = a ++ b /\ (forall x, In x a -> ~ In x pr) /\ (forall x, In x b -> In x pr).
Proof.
  intro SO. destruct (SO (by_priority pr) l) as [P O]. split; [exact P|]. specialize (O (by_priority_weak pr)). clear P. revert O. generalize (sort (by_priority pr) l) as s. clear l SO.
  induction s as [|x s IH]; intro O; [exists [], []; repeat split; intros x []|].
  destruct IH as (a & b & Q & NA & NB).
  { intros i j y z L Hi Hj. apply (O (S i) (S j)); [lia|exact Hi|exact Hj]. }
  destruct (smem x pr) eqn:E.
  - apply smem_In in E. assert (a = []) as ->.
    { destruct a as [|y a]; [reflexivity|]. exfalso. apply (O 0 1 x y); [lia|reflexivity|rewrite Q; reflexivity|]. apply by_priority_lt. split; [apply NA; left; reflexivity|exact E]. }
    exists [], (x :: s). split; [reflexivity|]. split; [intros y []|]. intros y [Hy|Hy]; [subst y; exact E|]. apply NB. rewrite Q in Hy. exact Hy.
  - exists (x :: a), b. split; [rewrite Q; reflexivity|]. split; [|exact NB]. intros y [Hy|Hy]; [subst y; rewrite <- smem_In; congruence|]. apply NA. exact Hy.
Qed.

(** ** Which pointer an input gives *)
Theorem C107_input_codes : 
  (forall pk b rs, hex_decode pk = Some b -> length b = 32%nat -> Forall (fun r => (length r <= 255)%nat) rs -> exists t, encode_profile pk rs = Ok t /\ input_pointer t = Err) /\
  (forall id b rs author ab, hex_decode id = Some b -> length b = 32%nat -> Forall (fun r => (length r <= 255)%nat) rs -> hex_prefix author = ab -> length ab = 32%nat \/ ab = [] ->
     exists t, encode_event_ptr id rs author = Ok t /\ input_pointer t = Ok (PEvent (mkEventPtr (hex_encode b) (some_relays rs) (hex_encode ab) 0))) /\
  (forall pk b kind ident rs, hex_decode pk = Some b -> length b = 32%nat -> Forall (fun r => (length r <= 255)%nat) rs -> (0 < kind < 4294967296)%Z -> ident <> [] -> (length ident <= 255)%nat ->
     exists t, encode_entity pk kind ident rs = Ok t /\ input_pointer t = Ok (PEntity (mkEntity (hex_encode b) kind ident (some_relays rs)))).
Proof.
  split; [|split].
  - intros pk b rs H L R. destruct (code_profile_round pk b rs H L R) as (t & E & D). exists t. split; [exact E|]. unfold input_pointer. rewrite D. reflexivity.
  - intros id b rs au ab H L R HA LA. destruct (code_event_round id b rs au ab H L R HA LA) as (t & E & D). exists t. split; [exact E|]. unfold input_pointer. rewrite D. reflexivity.
  - intros pk b k i rs H L R K I LI. destruct (code_entity_round pk b k i rs H L R K I LI) as (t & E & D). exists t. split; [exact E|]. unfold input_pointer. rewrite D. reflexivity.
Qed.
(** A note code stands for its id; codes of keys are refused. *)
Theorem C107_input_hex_codes s b : hex_decode s = Some b -> length b = 32%nat ->
  (exists t, encode_hex (B "note") s = Ok t /\ input_pointer t = Ok (PEvent (mkEventPtr (hex_encode b) None [] 0))) /\
  (exists t, encode_hex (B "npub") s = Ok t /\ input_pointer t = Err) /\ (exists t, encode_hex (B "nsec") s = Ok t /\ input_pointer t = Err).
Proof.
  intros H L. split; [|split].
  - destruct (code_hex_round (B "note") s b) as (t & E & D); [cbn; auto|exact H|exact L|]. exists t. split; [exact E|]. unfold input_pointer. rewrite D. reflexivity.
  - destruct (code_hex_round (B "npub") s b) as (t & E & D); [cbn; auto|exact H|exact L|]. exists t. split; [exact E|]. unfold input_pointer. rewrite D. reflexivity.
  - destruct (code_hex_round (B "nsec") s b) as (t & E & D); [cbn; auto|exact H|exact L|]. exists t. split; [exact E|]. unfold input_pointer. rewrite D. reflexivity.
Qed.
(** No text of hex digits is a code, so an id always stands for itself. *)
Lemma lower_hex_fixed c : is_lower_hex_char c = true -> is_lower_hex_char (lower c) = true.
Proof. destruct c as [[] [] [] [] [] [] [] []]; vm_compute; auto. Qed.
Lemma decode_hex_prefix s h d : forallb is_lower_hex_char s = true -> decode s = Ok (h, d) -> forallb is_lower_hex_char h = true.
Proof.
  intros F H. unfold decode in H. repeat match type of H with (if ?c then _ else _) = _ => destruct c; [discriminate|] end. destruct (split_last (map lower s)) as [[hrp data]|] eqn:SL; [|discriminate].
  destruct (_ || _); [discriminate|]. destruct (to_values data) as [vs|]; [|discriminate]. destruct (_ || _); [|discriminate]. assert (h = hrp) by congruence. subst h. apply split_last_inv in SL as [E _].
  assert (F' : forallb is_lower_hex_char (map lower s) = true). { rewrite forallb_forall in *. intros c Hc. apply in_map_iff in Hc as (c' & <- & Hc'). apply lower_hex_fixed. apply F. exact Hc'. }
  rewrite E, forallb_app in F'. apply andb_true_iff in F' as [F' _]. exact F'.
Qed.
Lemma convert_no_panic d f t pad : convert_bits d f t pad <> Panic.
Proof. unfold convert_bits. destruct (regroup f t d 0 0) as [[o n] k]. destruct (_ && _); [discriminate|]. destruct (_ && _); discriminate. Qed.
Theorem C107_input_id s : valid_32byte_hex s = true -> input_pointer s = Ok (PEvent (mkEventPtr s None [] 0)).
Proof.
  intro V. assert (D : nip19_decode s = Err); [|unfold input_pointer; rewrite D, V; reflexivity].
  assert (F : forallb is_lower_hex_char s = true) by (unfold valid_32byte_hex in V; apply andb_true_iff in V as [V _]; apply andb_true_iff in V as [V _]; exact V).
  unfold nip19_decode. destruct (decode s) as [[h d]| |] eqn:E; cbn [obind]; [|reflexivity|].
  - apply (decode_hex_prefix _ _ _ F) in E. destruct (convert_bits d 5 8 false) as [nums| |] eqn:CB; cbn [obind]; [|reflexivity|exfalso; revert CB; apply convert_no_panic].
    assert (K : forall p, forallb is_lower_hex_char p = false -> seqb h p = false). { intros p Hp. destruct (seqb h p) eqn:Q; [|reflexivity]. apply seqb_eq in Q. subst p. congruence. }
    rewrite !K by reflexivity. reflexivity.
  - exfalso. unfold decode in E. repeat match type of E with (if ?c then _ else _) = _ => destruct c; [discriminate|] end. destruct (split_last _) as [[a b]|]; [|discriminate]. destruct (_ || _); [discriminate|]. destruct (to_values b); [|discriminate]. destruct (_ || _); discriminate.
Qed.

(** ** Sorting is possible *)
Fixpoint insert (cmp : str -> str -> Z) (x : str) (l : list str) : list str := match l with [] => [x] | y :: r => if (cmp x y <? 0)%Z then x :: l else y :: insert cmp x r end.
Definition isort (cmp : str -> str -> Z) (l : list str) : list str := fold_right (insert cmp) [] l.
Lemma insert_perm cmp x l : Permutation (x :: l) (insert cmp x l).
Proof. induction l as [|y l IH]; cbn [insert]; [apply Permutation_refl|]. destruct (_ <? 0)%Z; [apply Permutation_refl|]. eapply perm_trans; [apply perm_swap|]. apply perm_skip. exact IH. Qed.
Lemma isort_perm cmp l : Permutation l (isort cmp l).
Proof. induction l as [|x l IH]; [constructor|]. eapply perm_trans; [apply perm_skip; exact IH|]. apply insert_perm. Qed.
Fixpoint ordered (cmp : str -> str -> Z) (l : list str) : Prop := match l with [] => True | x :: r => (forall y, In y r -> ~ (cmp y x < 0)%Z) /\ ordered cmp r end.
Lemma insert_ordered cmp x l : strict_weak (fun x y => (cmp x y < 0)%Z) -> ordered cmp l -> ordered cmp (insert cmp x l).
Proof.
  intros (IR & TR & _). induction l as [|y l IH]; intro O; cbn [insert]; [split; [intros y []|exact I]|]. destruct O as [O1 O2]. destruct (Z.ltb_spec (cmp x y) 0) as [L|L].
  - split; [|split; assumption]. intros z [<-|Hz] Q; [apply (IR x); apply (TR x y x L Q)|]. apply (O1 z Hz). apply (TR z x y Q L).
  - split; [|apply IH; exact O2]. intros z Hz Q. apply (Permutation_in z (Permutation_sym (insert_perm cmp x l))) in Hz as [<-|Hz]; [lia|]. apply (O1 z Hz Q).
Qed.
Theorem C107_sorts_example : sorts isort.
Proof.
  intros cmp l. split; [apply isort_perm|]. intro W. assert (O : ordered cmp (isort cmp l)) by (induction l as [|x l IH]; [exact I|]; apply insert_ordered; assumption).
  revert O. generalize (isort cmp l) as s. induction s as [|a s IH]; intros O i j x y L Hi Hj; [destruct i; discriminate|]. destruct O as [O1 O2]. destruct j as [|j]; [lia|]. cbn [nth_error] in Hj. destruct i as [|i].
  - assert (a = x) by (cbn in Hi; congruence). subst a. apply O1. apply nth_error_In in Hj. exact Hj.
  - apply (IH O2 i j); [lia|exact Hi|exact Hj].
Qed.

(** ** Examples and where it goes wrong *)
Definition sk : str := hex_encode (repeat (byte_of 7) 32).
Definition an_event (id : str) (t kind : Z) (tags : list tag) : event := mkEvent id sk t kind tags [] [].
Definition ptr : pointer := PEvent (mkEventPtr (B "e1") (Some [B "wss://hint"]) sk 0).
Definition general (n : nat) : str := nth n [B "wss://g0"; B "wss://g1"; B "wss://g2"] [].
Definition box (_ : str) : list str := [B "wss://out1"; B "wss://out2"].
Definition answers (n : nat) (_ : list str) (_ : nfilter) : list (event * str) :=
  if Nat.eqb n 0 then [(an_event (B "e1") 5 1 [], B "wss://hint"); (an_event (B "e1") 5 1 [], B "wss://g0")] else [(an_event (B "e1") 5 1 [], B "wss://just")].
Definition demo (w skip : bool) := fetch_specific (fun x => x) box (fun _ => []) answers isort ptr w skip [B "wss://just"] general 100%Z.
Example C107_quick_example : exists r, demo false false = Ok r /\ fo_event r = Some (an_event (B "e1") 5 1 []) /\ fo_relays r = [B "wss://hint"] /\
  fo_asked r = [[B "wss://hint"; B "wss://g0"; B "wss://out1"; B "wss://out2"]] /\ fo_hints r = [(sk, B "wss://hint", LastInHint, 100%Z)] /\ fo_published r = [an_event (B "e1") 5 1 []].
Proof. eexists. split; [vm_compute; reflexivity|]. repeat split. Qed.
Example C107_slow_example : exists r, demo true true = Ok r /\ fo_relays r = [B "wss://just"; B "wss://g0"; B "wss://hint"] /\ length (fo_asked r) = 2%nat /\ fo_published r = [].
Proof. eexists. split; [vm_compute; reflexivity|]. repeat split. Qed.
Example C107_honest_example : honest (fun _ => []) answers (pl_filter (plan_of ptr [] general)).
Proof. split; [intros e []|]. intros n us e u H. unfold answers in H. destruct (Nat.eqb n 0); [destruct H as [H|[H|[]]]|destruct H as [H|[]]]; (assert (e = an_event (B "e1") 5 1 []) by congruence; subst e; reflexivity). Qed.
Example C107_local_example : fetch_specific (fun x => x) box (fun _ => [an_event (B "e1") 5 1 []]) answers isort ptr true false [] general 1%Z = Ok (mkFound (Some (an_event (B "e1") 5 1 [])) [] [] [] []).
Proof. apply (C107_local _ _ _ _ _ _ _ _ _ _ _ []). reflexivity. Qed.
Example C107_crash_example : fetch_specific (fun x => x) box (fun _ => []) answers isort (PEvent (mkEventPtr (B "e1") None (B "ab") 0)) true false [] general 1%Z = Panic.
Proof. apply C107_crash; [right; reflexivity|]. cbn. lia. Qed.
Example C107_author_relays_example : In (B "wss://out2") (first_relays box ptr [] general).
Proof. apply C107_author_relays_partial; [right; left; reflexivity|discriminate| |]. { repeat constructor; cbn; intuition discriminate. } intros y [<-|[<-|[]]]; split; cbn; intuition discriminate. Qed.
Example C107_id_example : input_pointer sk = Ok (PEvent (mkEventPtr sk None [] 0)).
Proof. apply C107_input_id. vm_compute. reflexivity. Qed.

(** Waiting for the relays means that the general relays are asked even though the event was found: the description says they are the last resort. *)
Theorem C107_last_resort_refuted : exists p r fb, answers 0 (first_relays box p [] general) (pl_filter (plan_of p [] general)) <> [] /\
  fetch_specific (fun x => x) box (fun _ => []) answers isort p true true [] general 100%Z = Ok r /\ fo_asked r = [first_relays box p [] general; fb].
Proof. exists ptr. do 2 eexists. split; [discriminate|]. split; [vm_compute; reflexivity|]. vm_compute. reflexivity. Qed.
(** "put priority relays first": whatever the sorting algorithm, they come last. *)
Theorem C107_priority_first_refuted sort : sorts sort -> exists p many r a b, fetch_specific (fun x => x) (fun _ => []) (fun _ => []) many sort p true true [] general 100%Z = Ok r /\
  fo_relays r = [a; b] /\ ~ In a (hinted p) /\ In b (hinted p).
Proof.
  intro S. set (l := [B "wss://hint"; B "wss://g0"]). assert (Q : sort (by_priority (first_priority (fun _ => []) ptr)) l = [B "wss://g0"; B "wss://hint"]).
  { destruct (C107_relays sort (first_priority (fun _ => []) ptr) l S) as (P & a & b & E & NA & NB). rewrite E in *. pose proof (Permutation_length P) as Len. rewrite app_length in Len. cbn [length l] in Len.
    assert (G : In (B "wss://g0") a). { assert (G : In (B "wss://g0") (a ++ b)) by (apply (Permutation_in _ P); right; left; reflexivity). apply in_app_iff in G as [G|G]; [exact G|]. apply NB in G. cbn in G. destruct G as [G|[]]. discriminate. }
    assert (H : In (B "wss://hint") b). { assert (H : In (B "wss://hint") (a ++ b)) by (apply (Permutation_in _ P); left; reflexivity). apply in_app_iff in H as [H|H]; [|exact H]. apply NA in H. exfalso. apply H. left. reflexivity. }
    destruct a as [|x [|y a]]; [destruct G| |]; destruct b as [|z [|w b]]; cbn [length] in Len; try (destruct H; fail); try lia. destruct G as [G|[]], H as [H|[]]. subst x z. reflexivity. }
  exists ptr, (fun n _ _ => if Nat.eqb n 0 then [(an_event (B "e1") 5 1 [], B "wss://hint"); (an_event (B "e1") 5 1 [], B "wss://g0")] else []).
  destruct (C107_result (fun x => x) (fun _ => []) (fun _ => []) (fun n _ _ => if Nat.eqb n 0 then [(an_event (B "e1") 5 1 [], B "wss://hint"); (an_event (B "e1") 5 1 [], B "wss://g0")] else []) sort ptr true true [] general 100%Z (or_introl eq_refl)) as [_ R]; [vm_compute; lia|].
  destruct R as (e & _ & R); [discriminate|]. eexists. exists (B "wss://g0"), (B "wss://hint"). split; [exact R|]. cbn [fo_relays]. split; [exact Q|]. split; [|left; reflexivity]. intros [H|[]]. discriminate.
Qed.
(** When the pointer or the general relay already names the first relay of the author, the author's other relays are not asked at all. *)
Theorem C107_author_relays_refuted : exists outbox p ji next x, In x (outbox (author_of p)) /\ NoDup (outbox (author_of p)) /\ ~ In x (first_relays outbox p ji next).
Proof.
  exists (fun _ => [B "wss://hint"; B "wss://out2"]), ptr, [], general, (B "wss://out2"). split; [right; left; reflexivity|]. split; [repeat constructor; cbn; intuition discriminate|]. vm_compute. intuition discriminate.
Qed.
(** A pointer to a profile asks for anything: what comes back need not be of that person. *)
Theorem C107_profile_refuted : exists pk stored r e, fetch_specific (fun x => x) box stored answers isort (PProfile (mkProfile pk None)) false false [] general 1%Z = Ok r /\
  honest stored answers empty_filter /\ fo_event r = Some e /\ ev_pubkey e <> pk.
Proof.
  exists (B "someone"), (fun _ => [an_event (B "e9") 5 1 []]). do 2 eexists. split; [vm_compute; reflexivity|]. split; [|split; [reflexivity|discriminate]]. split; [intros e [<-|[]]; reflexivity|].
  intros n us e u H. apply filter_matches_spec. unfold match_spec_notime. cbn. repeat split; intros; try discriminate; contradiction.
Qed.
(** An address names the event by its first "d" tag (C08), the filter looks at all of them: another article can come back. *)
Theorem C107_address_refuted : exists v r e rest, fetch_specific (fun x => x) box (fun _ => [an_event (B "e9") 5 30023 [[B "d"; B "other"]; [B "d"; B "mine"]]]) answers isort (PEntity v) false false [] general 1%Z = Ok r /\
  fo_event r = Some e /\ ev_tags e = [B "d"; B "other"] :: rest /\ en_identifier v = B "mine".
Proof. exists (mkEntity sk 30023 (B "mine") None). do 3 eexists. split; [vm_compute; reflexivity|]. repeat split. Qed.

Print Assumptions C107_local.
Print Assumptions C107_crash.
Print Assumptions C107_result.
Print Assumptions C107_named.
Print Assumptions C107_asked.
Print Assumptions C107_author_relays_partial.
Print Assumptions C107_relays.
Print Assumptions C107_input_codes.
Print Assumptions C107_input_hex_codes.
Print Assumptions C107_input_id.
Print Assumptions C107_sorts_example.
Print Assumptions C107_last_resort_refuted.
Print Assumptions C107_priority_first_refuted.
Print Assumptions C107_author_relays_refuted.
Print Assumptions C107_profile_refuted.
Print Assumptions C107_address_refuted.

Print Assumptions C107_second_attempt.

Print Assumptions C107_filter.
