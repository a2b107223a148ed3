(** Proofs about FilterModel.v *)
From Verif Require Import Base EventModel TagsModel TagsProofs FilterModel.

(** ** Meaning of matching *)
Lemma tags_loop_spec m e :
  tags_loop m e = true <->
  forall k vs, In (k, Some vs) m -> exists t v rest, In t (ev_tags e) /\ t = k :: v :: rest /\ In v vs.
Proof.
  induction m as [|[k [vs|]] m IH]; cbn [tags_loop].
  - split; [intros _ k vs []|reflexivity].
  - destruct (contains_any (ev_tags e) k vs) eqn:E; cbn [negb].
    + rewrite IH. split; intros H k' vs' Hin.
      * destruct Hin as [Hin|Hin]; [|apply H, Hin]. injection Hin as <- <-. apply contains_any_spec, E.
      * apply H. right. exact Hin.
    + split; [discriminate|]. intro H. specialize (H k vs (or_introl eq_refl)).
      apply contains_any_spec in H. congruence.
  - rewrite IH. split; intros H k' vs' Hin.
    + destruct Hin as [Hin|Hin]; [discriminate|apply H, Hin].
    + apply H. right. exact Hin.
Qed.

Lemma listed_s x o : listed smem x o = true <-> (forall l, o = Some l -> In x l).
Proof.
  destruct o as [l|]; cbn [listed].
  - rewrite smem_In. split; [intros H l' E; injection E as <-; exact H|intro H; apply H; reflexivity].
  - split; [intros _ l E; discriminate|reflexivity].
Qed.

Lemma listed_z x o : listed zmem x o = true <-> (forall l, o = Some l -> In x l).
Proof.
  destruct o as [l|]; cbn [listed].
  - rewrite zmem_In. split; [intros H l' E; injection E as <-; exact H|intro H; apply H; reflexivity].
  - split; [intros _ l E; discriminate|reflexivity].
Qed.

Definition match_spec_notime (f : nfilter) (e : event) : Prop :=
  (forall l, f_ids f = Some l -> In (ev_id e) l) /\
  (forall l, f_kinds f = Some l -> In (ev_kind e) l) /\
  (forall l, f_authors f = Some l -> In (ev_pubkey e) l) /\
  (forall k vs, In (k, Some vs) (f_tags f) ->
     exists t v rest, In t (ev_tags e) /\ t = k :: v :: rest /\ In v vs).

Lemma matches_ignoring_time_spec f e : matches_ignoring_time f (Some e) = true <-> match_spec_notime f e.
Proof.
  unfold matches_ignoring_time, match_spec_notime.
  rewrite <- listed_s, <- listed_z, <- listed_s, <- tags_loop_spec.
  destruct (listed smem (ev_id e) (f_ids f)), (listed zmem (ev_kind e) (f_kinds f)),
    (listed smem (ev_pubkey e) (f_authors f)); cbn [negb]; intuition congruence.
Qed.

Lemma filter_matches_spec f e : filter_matches f (Some e) = true <->
  match_spec_notime f e /\
  (forall s, f_since f = Some s -> s <= ev_created_at e)%Z /\
  (forall u, f_until f = Some u -> ev_created_at e <= u)%Z.
Proof.
  unfold filter_matches. rewrite <- matches_ignoring_time_spec.
  destruct (matches_ignoring_time f (Some e)); cbn [negb]; [|intuition congruence].
  destruct (f_since f) as [s|], (f_until f) as [u|];
    repeat match goal with |- context[(?a <? ?b)%Z] => destruct (Z.ltb_spec a b) end;
    split; intro HH; try discriminate; try reflexivity;
    try (destruct HH as (_ & H1 & H2));
    try (specialize (H1 _ eq_refl)); try (specialize (H2 _ eq_refl)); try lia;
    (split; [reflexivity|split; intros x E; try discriminate; injection E as <-; lia]).
Qed.

Lemma filters_match_spec fs ev : filters_match fs ev = true <-> exists f, In f fs /\ filter_matches f ev = true.
Proof.
  induction fs as [|f fs IH]; cbn [filters_match].
  - split; [discriminate|intros (f & [] & _)].
  - destruct (filter_matches f ev) eqn:E.
    + split; [intros _; exists f; split; [left; reflexivity|exact E]|reflexivity].
    + rewrite IH. split; intros (g & Hg & Hm).
      * exists g; split; [right; exact Hg|exact Hm].
      * destruct Hg as [<-|Hg]; [congruence|exists g; auto].
Qed.

Lemma filters_match_ignoring_time_spec fs ev :
  filters_match_ignoring_time fs ev = true <-> exists f, In f fs /\ matches_ignoring_time f ev = true.
Proof.
  induction fs as [|f fs IH]; cbn [filters_match_ignoring_time].
  - split; [discriminate|intros (f & [] & _)].
  - destruct (matches_ignoring_time f ev) eqn:E.
    + split; [intros _; exists f; split; [left; reflexivity|exact E]|reflexivity].
    + rewrite IH. split; intros (g & Hg & Hm).
      * exists g; split; [right; exact Hg|exact Hm].
      * destruct Hg as [<-|Hg]; [congruence|exists g; auto].
Qed.

Lemma filter_matches_nil f : filter_matches f None = false.
Proof. reflexivity. Qed.

(** ** Equality *)
Lemma similar_loop_incl {A} (eqb : A -> A -> bool) (Heq : forall x y, eqb x y = true <-> x = y) l bs :
  similar_loop eqb l bs = true <-> incl l bs.
Proof.
  induction l as [|a l IH]; cbn [similar_loop].
  - split; [intros _ x []|reflexivity].
  - assert (E : existsb (fun b => eqb b a) bs = true <-> In a bs).
    { rewrite existsb_exists. split.
      - intros (b & Hb & E). apply Heq in E. congruence.
      - intro H. exists a. split; [exact H|apply Heq; reflexivity]. }
    destruct (existsb (fun b => eqb b a) bs).
    + rewrite IH. split; intros H x Hx.
      * destruct Hx as [<-|Hx]; [apply E; reflexivity|apply H, Hx].
      * apply H. right. exact Hx.
    + split; [discriminate|]. intro H. apply E. apply H. left. reflexivity.
Qed.

Lemma similar_spec {A} (eqb : A -> A -> bool) (Heq : forall x y, eqb x y = true <-> x = y) a b :
  similar eqb a b = true <-> length (oslice a) = length (oslice b) /\ incl (oslice a) (oslice b).
Proof.
  unfold similar. destruct (Nat.eqb_spec (length (oslice a)) (length (oslice b))) as [E|E]; cbn [negb].
  - rewrite similar_loop_incl by exact Heq. tauto.
  - split; [discriminate|tauto].
Qed.

Lemma similar_set {A} (eqb : A -> A -> bool) (Heq : forall x y, eqb x y = true <-> x = y) a b :
  NoDup (oslice a) -> similar eqb a b = true -> (forall x, In x (oslice a) <-> In x (oslice b)).
Proof.
  intros Hn H. apply similar_spec in H as [HL HI]; [|exact Heq].
  intro x. split; [apply HI|].
  apply (NoDup_length_incl Hn); [lia|exact HI].
Qed.

Lemma similar_refl {A} (eqb : A -> A -> bool) (Heq : forall x y, eqb x y = true <-> x = y) a : similar eqb a a = true.
Proof. apply similar_spec; [exact Heq|]. split; [reflexivity|apply incl_refl]. Qed.

Lemma assoc_In {V} k (m : list (str * V)) v : assoc k m = Some v -> In (k, v) m.
Proof.
  induction m as [|[k' v'] m IH]; cbn [assoc]; [discriminate|].
  destruct (seqb_spec k k') as [->|N]; intro H; [injection H as ->; left; reflexivity|right; apply IH, H].
Qed.

Lemma In_assoc {V} k (m : list (str * V)) v : NoDup (map fst m) -> In (k, v) m -> assoc k m = Some v.
Proof.
  induction m as [|[k' v'] m IH]; intros Hn Hi; [contradiction|]. cbn [assoc map fst] in *.
  inversion Hn as [|? ? N1 N2]; subst.
  destruct Hi as [Hi|Hi].
  - injection Hi as -> ->. rewrite seqb_refl. reflexivity.
  - destruct (seqb_spec k k') as [->|N]; [|apply IH; assumption].
    exfalso. apply N1. apply (in_map fst) in Hi. exact Hi.
Qed.

Lemma filter_equal_tags_spec m bm : filter_equal_tags m bm = true <->
  forall k av, In (k, av) m -> exists bv, assoc k bm = Some bv /\ similar seqb av bv = true.
Proof.
  induction m as [|[k av] m IH]; cbn [filter_equal_tags].
  - split; [intros _ k av []|reflexivity].
  - destruct (assoc k bm) as [bv|] eqn:E.
    + destruct (similar seqb av bv) eqn:Es; cbn [negb].
      * rewrite IH. split; intros H k' av' Hi.
        -- destruct Hi as [Hi|Hi]; [injection Hi as <- <-; eauto|apply H, Hi].
        -- apply H. right. exact Hi.
      * split; [discriminate|]. intro H. destruct (H k av (or_introl eq_refl)) as (bv' & E' & S). congruence.
    + split; [discriminate|]. intro H. destruct (H k av (or_introl eq_refl)) as (bv' & E' & S). congruence.
Qed.

Lemma ptr_equal_eq a b : ptr_equal a b = true <-> a = b.
Proof.
  destruct a as [x|], b as [y|]; cbn [ptr_equal]; split; intro H; try discriminate; try reflexivity.
  - f_equal. lia.
  - injection H as ->. apply Z.eqb_refl.
Qed.

Lemma guard_iff (b c : bool) : (if negb b then false else c) = true <-> b = true /\ c = true.
Proof. destruct b, c; cbn; intuition congruence. Qed.

Lemma filter_equal_spec a b : filter_equal a b = true <->
  similar Z.eqb (f_kinds a) (f_kinds b) = true /\ similar seqb (f_ids a) (f_ids b) = true /\
  similar seqb (f_authors a) (f_authors b) = true /\ length (f_tags a) = length (f_tags b) /\
  filter_equal_tags (f_tags a) (f_tags b) = true /\ f_since a = f_since b /\ f_until a = f_until b /\
  f_search a = f_search b /\ f_limit_zero a = f_limit_zero b.
Proof.
  unfold filter_equal.
  rewrite !guard_iff, !ptr_equal_eq, seqb_eq, Bool.eqb_true_iff, Nat.eqb_eq. tauto.
Qed.

(** A slice is normal when it is nil or non-empty without repetitions. *)
Definition normal_slice {A} (o : option (list A)) : Prop :=
  match o with None => True | Some l => l <> [] /\ NoDup l end.

Definition normal_filter (f : nfilter) : Prop :=
  normal_slice (f_ids f) /\ normal_slice (f_kinds f) /\ normal_slice (f_authors f) /\
  NoDup (map fst (f_tags f)) /\ (forall k v, In (k, v) (f_tags f) -> normal_slice v).

Lemma normal_nodup {A} (o : option (list A)) : normal_slice o -> NoDup (oslice o).
Proof. destruct o as [l|]; cbn; [tauto|constructor]. Qed.

Lemma similar_same {A} (eqb : A -> A -> bool) (Heq : forall x y, eqb x y = true <-> x = y) a b :
  normal_slice a -> normal_slice b -> similar eqb a b = true ->
  match a, b with None, None => True | Some x, Some y => forall z, In z x <-> In z y | _, _ => False end.
Proof.
  intros Ha Hb H. pose proof (similar_set eqb Heq a b (normal_nodup a Ha) H) as HS.
  apply similar_spec in H as [HL _]; [|exact Heq].
  destruct a as [x|], b as [y|]; cbn in *.
  - exact HS.
  - destruct x; [tauto|discriminate].
  - destruct y; [tauto|discriminate].
  - exact I.
Qed.

Lemma same_listed {A} (a b : option (list A)) (x : A) :
  match a, b with None, None => True | Some x, Some y => forall z, In z x <-> In z y | _, _ => False end ->
  (forall l, a = Some l -> In x l) <-> (forall l, b = Some l -> In x l).
Proof.
  destruct a as [u|], b as [v|]; intro H; try contradiction.
  - split; intros H1 l E; injection E as <-; apply H, H1; reflexivity.
  - split; intros H1 l E; discriminate.
Qed.

(** Two tag maps with the same keys in each direction. *)
Lemma map_keys_incl (m bm : list (str * option (list str))) :
  NoDup (map fst m) -> NoDup (map fst bm) -> length m = length bm ->
  filter_equal_tags m bm = true ->
  forall k bv, In (k, bv) bm -> exists av, In (k, av) m /\ similar seqb av bv = true.
Proof.
  intros Hm Hb HL HE k bv Hi. rewrite filter_equal_tags_spec in HE.
  assert (Hk : incl (map fst m) (map fst bm)).
  { intros x Hx. apply in_map_iff in Hx as ([k' av] & <- & Hx). cbn [fst].
    destruct (HE _ _ Hx) as (bv' & E & _). apply assoc_In in E. apply (in_map fst) in E. exact E. }
  assert (Hk2 : incl (map fst bm) (map fst m)).
  { apply (NoDup_length_incl Hm); [rewrite !map_length; lia|exact Hk]. }
  assert (Hin : In k (map fst m)) by (apply Hk2; apply (in_map fst) in Hi; exact Hi).
  apply in_map_iff in Hin as ([k' av] & E & Hin). cbn [fst] in E. subst k'.
  exists av. split; [exact Hin|]. destruct (HE _ _ Hin) as (bv' & E & S).
  rewrite (In_assoc _ _ _ Hb Hi) in E. congruence.
Qed.

Lemma filter_equal_matches a b : normal_filter a -> normal_filter b -> filter_equal a b = true ->
  forall ev, filter_matches a ev = filter_matches b ev.
Proof.
  intros (A1 & A2 & A3 & A4 & A5) (B1 & B2 & B3 & B4 & B5) H ev.
  apply filter_equal_spec in H as (H1 & H2 & H3 & H4 & H5 & H6 & H7 & _ & _).
  destruct ev as [e|]; [|reflexivity].
  apply eq_true_iff_eq. rewrite !filter_matches_spec. unfold match_spec_notime.
  rewrite H6, H7.
  rewrite (same_listed _ _ (ev_id e) (similar_same seqb seqb_eq _ _ A1 B1 H2)).
  rewrite (same_listed _ _ (ev_kind e) (similar_same Z.eqb Z.eqb_eq _ _ A2 B2 H1)).
  rewrite (same_listed _ _ (ev_pubkey e) (similar_same seqb seqb_eq _ _ A3 B3 H3)).
  assert (HT : (forall k vs, In (k, Some vs) (f_tags a) ->
      exists t v rest, In t (ev_tags e) /\ t = k :: v :: rest /\ In v vs) <->
     (forall k vs, In (k, Some vs) (f_tags b) ->
      exists t v rest, In t (ev_tags e) /\ t = k :: v :: rest /\ In v vs)).
  { split; intros H k vs Hi.
    - destruct (map_keys_incl _ _ A4 B4 H4 H5 _ _ Hi) as (av & Ha & S).
      pose proof (similar_same seqb seqb_eq _ _ (A5 _ _ Ha) (B5 _ _ Hi) S) as HS.
      destruct av as [av|]; [|contradiction].
      destruct (H _ _ Ha) as (t & v & r & T1 & T2 & T3). exists t, v, r. split; [exact T1|]. split; [exact T2|].
      apply HS, T3.
    - rewrite filter_equal_tags_spec in H5. destruct (H5 _ _ Hi) as (bv & E & S).
      apply assoc_In in E.
      pose proof (similar_same seqb seqb_eq _ _ (A5 _ _ Hi) (B5 _ _ E) S) as HS.
      destruct bv as [bv|]; [|contradiction].
      destruct (H _ _ E) as (t & v & r & T1 & T2 & T3). exists t, v, r. split; [exact T1|]. split; [exact T2|].
      apply HS, T3. }
  rewrite HT. reflexivity.
Qed.

Lemma filter_equal_sym a b : normal_filter a -> normal_filter b -> filter_equal a b = true -> filter_equal b a = true.
Proof.
  intros (A1 & A2 & A3 & A4 & A5) (B1 & B2 & B3 & B4 & B5) H.
  apply filter_equal_spec in H as (H1 & H2 & H3 & H4 & H5 & H6 & H7 & H8 & H9).
  apply filter_equal_spec.
  assert (SY : forall A (eqb : A -> A -> bool) (Heq : forall x y, eqb x y = true <-> x = y) u v,
    normal_slice u -> similar eqb u v = true -> similar eqb v u = true).
  { intros A eqb Heq u v Hn S. pose proof (similar_set eqb Heq u v (normal_nodup u Hn) S) as HS.
    apply similar_spec in S as [L _]; [|exact Heq]. apply similar_spec; [exact Heq|].
    split; [lia|]. intros x Hx. apply HS, Hx. }
  repeat split; try (symmetry; assumption); try congruence.
  - apply SY; [apply Z.eqb_eq|assumption..].
  - apply SY; [apply seqb_eq|assumption..].
  - apply SY; [apply seqb_eq|assumption..].
  - apply filter_equal_tags_spec. intros k bv Hi.
    destruct (map_keys_incl _ _ A4 B4 H4 H5 _ _ Hi) as (av & Ha & S).
    exists av. split; [apply In_assoc; assumption|]. apply SY; [apply seqb_eq|eapply A5; exact Ha|exact S].
Qed.

Lemma filter_equal_refl a : wf_filter a -> filter_equal a a = true.
Proof.
  intro H. apply filter_equal_spec.
  repeat split; try reflexivity; try (apply similar_refl; (apply Z.eqb_eq || apply seqb_eq)).
  apply filter_equal_tags_spec. intros k av Hi. exists av. split; [apply In_assoc; assumption|].
  apply similar_refl, seqb_eq.
Qed.

(** ** Theoretical limit *)
(** Pigeonhole: a list whose keys are distinct and drawn from L has at most |L| elements. *)
Lemma keyed_length {A K} (key : A -> K) (l : list A) (L : list K) :
  NoDup l -> (forall a b, In a l -> In b l -> key a = key b -> a = b) ->
  (forall a, In a l -> In (key a) L) -> length l <= length L.
Proof.
  intros Hn Hinj Hin. rewrite <- (map_length key). apply NoDup_incl_length.
  - clear Hin. induction l as [|a l IH]; [constructor|].
    inversion Hn as [|? ? N1 N2]; subst. cbn [map]. constructor.
    + intro H. apply in_map_iff in H as (b & E & Hb).
      assert (b = a) by (apply Hinj; [right; exact Hb|left; reflexivity|exact E]). subst b. contradiction.
    + apply IH; [exact N2|]. intros x y Hx Hy. apply Hinj; right; assumption.
  - intros k Hk. apply in_map_iff in Hk as (a & <- & Ha). apply Hin, Ha.
Qed.

Lemma nodup_map_inj {A K} (key : A -> K) (l : list A) : NoDup (map key l) ->
  forall a b, In a l -> In b l -> key a = key b -> a = b.
Proof.
  induction l as [|x l IH]; intros Hn a b Ha Hb E; [contradiction|].
  cbn [map] in Hn. inversion Hn as [|? ? N1 N2]; subst.
  destruct Ha as [<-|Ha], Hb as [<-|Hb]; auto.
  - exfalso. apply N1. rewrite E. apply in_map, Hb.
  - exfalso. apply N1. rewrite <- E. apply in_map, Ha.
Qed.

Lemma nodup_of_map {A K} (key : A -> K) (l : list A) : NoDup (map key l) -> NoDup l.
Proof. apply NoDup_map_inv. Qed.
