(** C07-C10, C12: filters. *)
From Verif Require Import Base EventModel TagsModel TagsProofs FilterModel FilterProofs.

Definition ex_filter : nfilter :=
  mkFilter None (Some [1; 7]%Z) (Some [B "alice"; B "bob"]) [(B "t", Some [B "x"; B "y"])] (Some 100%Z) (Some 200%Z) 10 [] false.
Definition ex_ev (author : str) (t : Z) (v : str) : event :=
  mkEvent (B "id1") author t 7 [[B "t"]; [B "p"; B "x"]; [B "t"; v; B "extra"]] [] [].

(** ** C07 *)
(** What NIP-01 asks of an event, condition by condition. An absent list (None) imposes nothing. *)
Definition asks {A} (o : option (list A)) (x : A) : Prop := match o with None => True | Some l => In x l end.
Definition tag_condition (e : event) (name : str) (values : list str) : Prop :=
  exists v rest, In (name :: v :: rest) (ev_tags e) /\ In v values.
Definition nip01_match (f : nfilter) (e : event) : Prop :=
  asks (f_ids f) (ev_id e) /\ asks (f_kinds f) (ev_kind e) /\ asks (f_authors f) (ev_pubkey e) /\
  (forall name values, In (name, Some values) (f_tags f) -> tag_condition e name values) /\
  match f_since f with Some s => (s <= ev_created_at e)%Z | None => True end /\
  match f_until f with Some u => (ev_created_at e <= u)%Z | None => True end.

Lemma asks_iff {A} (o : option (list A)) x : asks o x <-> (forall l, o = Some l -> In x l).
Proof.
  destruct o as [l|]; cbn [asks].
  - split; [intros H l' E; injection E as <-; exact H|intro H; apply H; reflexivity].
  - split; [intros _ l E; discriminate|trivial].
Qed.

Lemma tag_condition_iff e k vs :
  tag_condition e k vs <-> exists t v rest, In t (ev_tags e) /\ t = k :: v :: rest /\ In v vs.
Proof.
  unfold tag_condition. split.
  - intros (v & r & H1 & H2). eauto 6.
  - intros (t & v & r & H1 & -> & H2). eauto.
Qed.

Theorem C07_matches_iff_nip01 : forall f e, filter_matches f (Some e) = true <-> nip01_match f e.
Proof.
  intros f e. rewrite filter_matches_spec. unfold match_spec_notime, nip01_match. rewrite !asks_iff.
  assert (HT : (forall k vs, In (k, Some vs) (f_tags f) ->
      exists t v rest, In t (ev_tags e) /\ t = k :: v :: rest /\ In v vs) <->
      (forall k vs, In (k, Some vs) (f_tags f) -> tag_condition e k vs)).
  { split; intros H k vs Hi; apply tag_condition_iff, H, Hi. }
  rewrite HT.
  assert (HS : (forall s, f_since f = Some s -> s <= ev_created_at e)%Z <->
     match f_since f with Some s => (s <= ev_created_at e)%Z | None => True end).
  { destruct (f_since f) as [s|]; split; intro H; auto; intros x E; inversion E; subst; auto. }
  assert (HU : (forall s, f_until f = Some s -> ev_created_at e <= s)%Z <->
     match f_until f with Some u => (ev_created_at e <= u)%Z | None => True end).
  { destruct (f_until f) as [s|]; split; intro H; auto; intros x E; inversion E; subst; auto. }
  rewrite HS, HU. tauto.
Qed.
Print Assumptions C07_matches_iff_nip01.

(** Without the time window: the same with since and until removed. A nil event never matches. *)
Theorem C07_matches_ignoring_time : forall f e,
  matches_ignoring_time f (Some e) = true <->
  nip01_match (mkFilter (f_ids f) (f_kinds f) (f_authors f) (f_tags f) None None (f_limit f) (f_search f) (f_limit_zero f)) e.
Proof.
  intros f e. rewrite <- C07_matches_iff_nip01, matches_ignoring_time_spec, filter_matches_spec.
  unfold match_spec_notime. cbn. split.
  - intro H. split; [exact H|]. split; intros; discriminate.
  - tauto.
Qed.
Print Assumptions C07_matches_ignoring_time.

(** An empty, non-nil list matches nothing. *)
Theorem C07_empty_list_matches_nothing : forall f ev,
  f_ids f = Some [] \/ f_kinds f = Some [] \/ f_authors f = Some [] \/ (exists k, In (k, Some []) (f_tags f)) ->
  filter_matches f ev = false.
Proof.
  intros f [e|] H; [|reflexivity].
  destruct (filter_matches f (Some e)) eqn:E; [|reflexivity]. exfalso.
  apply C07_matches_iff_nip01 in E as (H1 & H2 & H3 & H4 & _).
  destruct H as [H|[H|[H|(k & H)]]].
  - rewrite H in H1. exact H1.
  - rewrite H in H2. exact H2.
  - rewrite H in H3. exact H3.
  - destruct (H4 _ _ H) as (v & r & _ & []).
Qed.
Print Assumptions C07_empty_list_matches_nothing.

Example C07_example :
  filter_matches ex_filter (Some (ex_ev (B "bob") 200 (B "y"))) = true /\
  filter_matches ex_filter (Some (ex_ev (B "bob") 201 (B "y"))) = false /\
  filter_matches ex_filter (Some (ex_ev (B "eve") 150 (B "y"))) = false /\
  filter_matches ex_filter (Some (ex_ev (B "bob") 150 (B "z"))) = false /\
  nip01_match ex_filter (ex_ev (B "bob") 200 (B "y")).
Proof.
  repeat split; try (vm_compute; reflexivity); try (cbn; tauto); try (vm_compute; discriminate).
  intros n vs [H|[]]. injection H as <- <-. exists (B "y"), [B "extra"]. cbn. tauto.
Qed.

(** ** C08 *)
Theorem C08_filters_disjunction : forall fs ev,
  (filters_match fs ev = true <-> exists f, In f fs /\ filter_matches f ev = true) /\
  (filters_match_ignoring_time fs ev = true <-> exists f, In f fs /\ matches_ignoring_time f ev = true).
Proof. intros. split; [apply filters_match_spec|apply filters_match_ignoring_time_spec]. Qed.
Print Assumptions C08_filters_disjunction.

Theorem C08_filters_as_sets : forall fs gs ev,
  (forall f, In f fs -> In f gs) -> filters_match fs ev = true -> filters_match gs ev = true.
Proof.
  intros fs gs ev H. rewrite !filters_match_spec. intros (f & Hf & Hm). exists f. auto.
Qed.
Print Assumptions C08_filters_as_sets.

Theorem C08_order_and_duplicates_irrelevant : forall fs gs ev,
  (forall f, In f fs <-> In f gs) -> filters_match fs ev = filters_match gs ev.
Proof.
  intros fs gs ev H. apply eq_true_iff_eq. split; apply C08_filters_as_sets; apply H.
Qed.
Print Assumptions C08_order_and_duplicates_irrelevant.

Theorem C08_empty_list : forall ev, filters_match [] ev = false.
Proof. reflexivity. Qed.
Print Assumptions C08_empty_list.

Example C08_example :
  let none := mkFilter (Some []) None None [] None None 0 [] false in
  filters_match [none; ex_filter; none] (Some (ex_ev (B "bob") 200 (B "y"))) = true /\
  filters_match [none; none] (Some (ex_ev (B "bob") 200 (B "y"))) = false.
Proof. vm_compute. split; reflexivity. Qed.

(** ** C09 *)
(** g asks no more than f: each list of g is absent or extends the one of f, each tag condition of g is in f
    with fewer values, and the window is no smaller. Adding values goes from f to g; adding a condition goes from g to f. *)
Definition wider_list {A} (o o' : option (list A)) : Prop :=
  match o', o with
  | None, _ => True
  | Some l', Some l => forall x, In x l -> In x l'
  | Some _, None => False
  end.
Definition wider (f g : nfilter) : Prop :=
  wider_list (f_ids f) (f_ids g) /\ wider_list (f_kinds f) (f_kinds g) /\ wider_list (f_authors f) (f_authors g) /\
  (forall name vs', In (name, Some vs') (f_tags g) ->
     exists vs, In (name, Some vs) (f_tags f) /\ forall v, In v vs -> In v vs') /\
  match f_since g, f_since f with None, _ => True | Some s', Some s => (s' <= s)%Z | Some _, None => False end /\
  match f_until g, f_until f with None, _ => True | Some u', Some u => (u <= u')%Z | Some _, None => False end.

Lemma wider_asks {A} (o o' : option (list A)) x : wider_list o o' -> asks o x -> asks o' x.
Proof. destruct o as [l|], o' as [l'|]; cbn; intros H1 H2; auto; contradiction. Qed.

Theorem C09_wider_matches_more : forall f g, wider f g ->
  forall ev, filter_matches f ev = true -> filter_matches g ev = true.
Proof.
  intros f g (W1 & W2 & W3 & W4 & W5 & W6) [e|] H; [|discriminate].
  apply C07_matches_iff_nip01 in H as (H1 & H2 & H3 & H4 & H5 & H6). apply C07_matches_iff_nip01.
  repeat split.
  - eapply wider_asks; eassumption.
  - eapply wider_asks; eassumption.
  - eapply wider_asks; eassumption.
  - intros n vs' Hi. destruct (W4 _ _ Hi) as (vs & Hf & Hv). destruct (H4 _ _ Hf) as (v & r & Ht & Hin).
    exists v, r. auto.
  - destruct (f_since g), (f_since f); try contradiction; auto; lia.
  - destruct (f_until g), (f_until f); try contradiction; auto; lia.
Qed.
Print Assumptions C09_wider_matches_more.

(** The single steps of the English statement are instances. *)
Definition add_id (x : str) (f : nfilter) : nfilter :=
  mkFilter (option_map (fun l => l ++ [x]) (f_ids f)) (f_kinds f) (f_authors f) (f_tags f) (f_since f) (f_until f)
    (f_limit f) (f_search f) (f_limit_zero f).
Definition add_kind (x : Z) (f : nfilter) : nfilter :=
  mkFilter (f_ids f) (option_map (fun l => l ++ [x]) (f_kinds f)) (f_authors f) (f_tags f) (f_since f) (f_until f)
    (f_limit f) (f_search f) (f_limit_zero f).
Definition add_author (x : str) (f : nfilter) : nfilter :=
  mkFilter (f_ids f) (f_kinds f) (option_map (fun l => l ++ [x]) (f_authors f)) (f_tags f) (f_since f) (f_until f)
    (f_limit f) (f_search f) (f_limit_zero f).
Definition add_tag_value (k v : str) (f : nfilter) : nfilter :=
  mkFilter (f_ids f) (f_kinds f) (f_authors f)
    (map (fun p => if seqb (fst p) k then (fst p, option_map (fun l => l ++ [v]) (snd p)) else p) (f_tags f))
    (f_since f) (f_until f) (f_limit f) (f_search f) (f_limit_zero f).
Definition add_tag_condition (k : str) (vs : list str) (f : nfilter) : nfilter :=
  mkFilter (f_ids f) (f_kinds f) (f_authors f) (f_tags f ++ [(k, Some vs)]) (f_since f) (f_until f)
    (f_limit f) (f_search f) (f_limit_zero f).
Definition set_window (s u : option Z) (f : nfilter) : nfilter :=
  mkFilter (f_ids f) (f_kinds f) (f_authors f) (f_tags f) s u (f_limit f) (f_search f) (f_limit_zero f).

Lemma wider_list_refl {A} (o : option (list A)) : wider_list o o.
Proof. destruct o; cbn; auto. Qed.
Lemma wider_list_app {A} (o : option (list A)) x : wider_list o (option_map (fun l => l ++ [x]) o).
Proof. destruct o; cbn; [intros y H; apply in_or_app; auto|exact I]. Qed.
Lemma tags_refl (m : list (str * option (list str))) name vs' : In (name, Some vs') m ->
     exists vs, In (name, Some vs) m /\ forall v, In v vs -> In v vs'.
Proof. eauto. Qed.
Theorem C09_adding_values_keeps_matches : forall f ev, filter_matches f ev = true ->
  (forall x, filter_matches (add_id x f) ev = true) /\ (forall x, filter_matches (add_kind x f) ev = true) /\
  (forall x, filter_matches (add_author x f) ev = true) /\
  (forall k v, filter_matches (add_tag_value k v f) ev = true).
Proof.
  intros f ev H.
  assert (R : forall name vs', In (name, Some vs') (f_tags f) ->
     exists vs, In (name, Some vs) (f_tags f) /\ forall v, In v vs -> In v vs') by apply tags_refl.
  split; [|split; [|split]]; intros; (eapply C09_wider_matches_more; [|exact H]);
    unfold wider; cbn [add_id add_kind add_author add_tag_value f_ids f_kinds f_authors f_tags f_since f_until];
    (split; [apply wider_list_refl || apply wider_list_app|]);
    (split; [apply wider_list_refl || apply wider_list_app|]);
    (split; [apply wider_list_refl || apply wider_list_app|]);
    (split; [try exact R|split; [destruct (f_since f); [apply Z.le_refl|trivial]|destruct (f_until f); [apply Z.le_refl|trivial]]]).
  intros name vs' Hi. apply in_map_iff in Hi as ([k' o] & E & Hi). cbn [fst snd] in E.
  destruct (seqb k' k).
  - destruct o as [l|]; cbn [option_map] in E; [|discriminate]. injection E as <- <-.
    exists l. split; [exact Hi|]. intros. apply in_or_app; auto.
  - injection E as <- ->. eauto.
Qed.
Print Assumptions C09_adding_values_keeps_matches.

Theorem C09_adding_conditions_loses_only : forall f ev,
  (forall k vs, filter_matches (add_tag_condition k vs f) ev = true -> filter_matches f ev = true) /\
  (forall s s0 u, f_since f = Some s0 -> (s0 <= s)%Z ->
     filter_matches (set_window (Some s) u f) ev = true -> filter_matches (set_window (Some s0) u f) ev = true) /\
  (forall s u u0, f_until f = Some u0 -> (u <= u0)%Z ->
     filter_matches (set_window s (Some u) f) ev = true -> filter_matches (set_window s (Some u0) f) ev = true) /\
  (forall s u, filter_matches (set_window s u f) ev = true -> filter_matches (set_window None None f) ev = true) /\
  (forall ids kinds authors,
     filter_matches (mkFilter (Some ids) (Some kinds) (Some authors) (f_tags f) (f_since f) (f_until f)
       (f_limit f) (f_search f) (f_limit_zero f)) ev = true ->
     filter_matches (mkFilter None None None (f_tags f) (f_since f) (f_until f)
       (f_limit f) (f_search f) (f_limit_zero f)) ev = true).
Proof.
  intros f ev.
  assert (R : forall name vs', In (name, Some vs') (f_tags f) ->
     exists vs, In (name, Some vs) (f_tags f) /\ forall v, In v vs -> In v vs') by apply tags_refl.
  assert (RS : match f_since f with Some s' => match f_since f with Some s => (s' <= s)%Z | None => False end | None => True end)
    by (destruct (f_since f); [apply Z.le_refl|trivial]).
  assert (RU : match f_until f with Some s' => match f_until f with Some s => (s <= s')%Z | None => False end | None => True end)
    by (destruct (f_until f); [apply Z.le_refl|trivial]).
  repeat match goal with |- _ /\ _ => split end; intros; (eapply C09_wider_matches_more; [|eassumption]);
    unfold wider; cbn [add_tag_condition set_window f_ids f_kinds f_authors f_tags f_since f_until];
    (split; [apply wider_list_refl || exact I|]);
    (split; [apply wider_list_refl || exact I|]);
    (split; [apply wider_list_refl || exact I|]);
    (split; [try exact R|]); try (split; [exact RS || exact I || assumption|exact RU || exact I || assumption]).
  - intros name vs' Hi. exists vs'. split; [apply in_or_app; left; exact Hi|auto].
  - split; [assumption|]. destruct u; [apply Z.le_refl|trivial].
  - split; [|assumption]. destruct s; [apply Z.le_refl|trivial].
Qed.
Print Assumptions C09_adding_conditions_loses_only.

Example C09_example :
  wider ex_filter (add_kind 3 ex_filter) /\
  filter_matches (set_window (Some 201%Z) None ex_filter) (Some (ex_ev (B "bob") 200 (B "y"))) = false.
Proof.
  split; [|vm_compute; reflexivity].
  repeat split; cbn; try lia; try tauto. intros n vs H. eauto.
Qed.

(** ** C10 *)
(** The full claim fails in four ways. *)
Definition only_kinds (o : option (list Z)) (limit : Z) : nfilter := mkFilter None o None [] None None limit [] false.

Theorem C10_equal_but_match_differently_refuted : exists a b ev,
  filter_equal a b = true /\ filter_matches a ev <> filter_matches b ev.
Proof.
  exists (only_kinds (Some [1; 1]%Z) 0), (only_kinds (Some [1; 2]%Z) 0), (Some (mkEvent [] [] 0 2 [] [] [])).
  split; [vm_compute; reflexivity|vm_compute; discriminate].
Qed.
Print Assumptions C10_equal_but_match_differently_refuted.

Theorem C10_nil_vs_empty_refuted : exists a b ev,
  filter_equal a b = true /\ filter_equal b a = true /\ filter_matches a ev <> filter_matches b ev.
Proof.
  exists (only_kinds None 0), (only_kinds (Some []) 0), (Some (mkEvent [] [] 0 2 [] [] [])).
  repeat split; try (vm_compute; reflexivity). vm_compute; discriminate.
Qed.
Print Assumptions C10_nil_vs_empty_refuted.

Theorem C10_not_symmetric_refuted : exists a b, filter_equal a b = true /\ filter_equal b a = false.
Proof.
  exists (only_kinds (Some [1; 1]%Z) 0), (only_kinds (Some [1; 2]%Z) 0). split; vm_compute; reflexivity.
Qed.
Print Assumptions C10_not_symmetric_refuted.

Theorem C10_limit_ignored_refuted : exists a b, filter_equal a b = true /\ f_limit a <> f_limit b.
Proof.
  exists (only_kinds None 5), (only_kinds None 6). split; [vm_compute; reflexivity|discriminate].
Qed.
Print Assumptions C10_limit_ignored_refuted.

(** What holds: for filters whose lists are nil or non-empty and free of repetitions, equality implies the same
    matches and is symmetric; it is always reflexive. Missing: lists with repetitions, empty lists, and the limit. *)
Theorem C10_filter_equal_partial : forall a b, normal_filter a -> normal_filter b -> filter_equal a b = true ->
  (forall ev, filter_matches a ev = filter_matches b ev) /\ filter_equal b a = true.
Proof.
  intros a b Ha Hb H. split; [apply filter_equal_matches; assumption|apply filter_equal_sym; assumption].
Qed.
Print Assumptions C10_filter_equal_partial.

Theorem C10_filter_equal_reflexive : forall a, NoDup (map fst (f_tags a)) -> filter_equal a a = true.
Proof. exact filter_equal_refl. Qed.
Print Assumptions C10_filter_equal_reflexive.

Example C10_example :
  let a := mkFilter None (Some [1; 7]%Z) None [(B "t", Some [B "x"; B "y"]); (B "d", None)] None None 0 [] false in
  let b := mkFilter None (Some [7; 1]%Z) None [(B "d", None); (B "t", Some [B "y"; B "x"])] None None 0 [] false in
  normal_filter a /\ normal_filter b /\ filter_equal a b = true.
Proof.
  assert (N : forall (x y : str), x <> y -> NoDup [x; y]).
  { intros x y H. constructor; [intros [E|[]]; congruence|]. constructor; [intros []|constructor]. }
  cbv zeta. split; [|split; [|vm_compute; reflexivity]]; unfold normal_filter; cbn.
  - repeat split; try discriminate.
    + constructor; [intros [E|[]]; discriminate|]. constructor; [intros []|constructor].
    + apply N; discriminate.
    + intros k v [E|[E|[]]]; injection E as <- <-; cbn; [|exact I]. split; [discriminate|apply N; discriminate].
  - repeat split; try discriminate.
    + constructor; [intros [E|[]]; discriminate|]. constructor; [intros []|constructor].
    + apply N; discriminate.
    + intros k v [E|[E|[]]]; injection E as <- <-; cbn; [exact I|]. split; [discriminate|apply N; discriminate].
Qed.

(** ** C12 *)
(** What a relay may hold at once: distinct ids; one event per author and kind for replaceable kinds; one
    event per author, kind and (first) d value for addressable kinds. *)
Definition relay_set (l : list event) : Prop :=
  NoDup (map ev_id l) /\
  (forall a b, In a l -> In b l -> is_replaceable_kind (ev_kind a) = true ->
     ev_kind a = ev_kind b -> ev_pubkey a = ev_pubkey b -> a = b) /\
  (forall a b, In a l -> In b l -> is_addressable_kind (ev_kind a) = true ->
     ev_kind a = ev_kind b -> ev_pubkey a = ev_pubkey b -> get_d (ev_tags a) = get_d (ev_tags b) -> a = b).

(** The full claim: for every filter with limit n >= 0 and every such set of matching events, at most n events.
    It fails for events with two d tags. *)
Theorem C12_theoretical_limit_refuted : exists f l,
  relay_set l /\ (forall e, In e l -> filter_matches f (Some e) = true) /\
  (0 <= theoretical_limit f)%Z /\ (Z.of_nat (length l) > theoretical_limit f)%Z.
Proof.
  set (e1 := mkEvent (B "1") (B "a") 0 30000 [[B "d"; B "y"]; [B "d"; B "x"]] [] []).
  set (e2 := mkEvent (B "2") (B "a") 0 30000 [[B "d"; B "z"]; [B "d"; B "x"]] [] []).
  exists (mkFilter None (Some [30000%Z]) (Some [B "a"]) [(B "d", Some [B "x"])] None None 0 [] false), [e1; e2].
  split; [|split; [|split]].
  - unfold relay_set. repeat split.
    + constructor; [intros [E|[]]; discriminate|]. constructor; [intros []|constructor].
    + intros a b [<-|[<-|[]]] [<-|[<-|[]]] H; discriminate H.
    + intros a b [<-|[<-|[]]] [<-|[<-|[]]] _ _ _ H; try reflexivity; discriminate H.
  - intros e [<-|[<-|[]]]; vm_compute; reflexivity.
  - vm_compute. discriminate.
  - vm_compute. reflexivity.
Qed.
Print Assumptions C12_theoretical_limit_refuted.

(** What holds: the bound, for events that carry at most one d value. *)
Definition one_d (e : event) : Prop :=
  forall v r, In (B "d" :: v :: r) (ev_tags e) -> v = get_d (ev_tags e).

Theorem C12_theoretical_limit_partial : forall f l,
  relay_set l -> (forall e, In e l -> filter_matches f (Some e) = true) -> (forall e, In e l -> one_d e) ->
  (0 <= theoretical_limit f)%Z -> (Z.of_nat (length l) <= theoretical_limit f)%Z.
Proof.
  intros f l (R1 & R2 & R3) HM HD HL.
  assert (HM' : forall e, In e l -> nip01_match f e) by (intros e He; apply C07_matches_iff_nip01, HM, He).
  assert (ND : NoDup l) by (apply (NoDup_map_inv ev_id), R1).
  unfold theoretical_limit in *.
  destruct (Z.ltb_spec 0 (olen (f_ids f))) as [Hi|Hi].
  { unfold olen. apply inj_le. apply (keyed_length ev_id); [exact ND|apply nodup_map_inj, R1|].
    intros e He. destruct (HM' e He) as (H & _). unfold olen in Hi. destruct (f_ids f); [exact H|cbn in Hi; lia]. }
  destruct (Z.eqb_spec (olen (f_kinds f)) 0) as [Hk|Hk]; [lia|].
  destruct (Z.ltb_spec 0 (olen (f_authors f))) as [Ha|Ha]; [|lia].
  assert (K : forall e, In e l -> In (ev_kind e) (oslice (f_kinds f))).
  { intros e He. destruct (HM' e He) as (_ & H & _). unfold olen in Hk. destruct (f_kinds f); [exact H|cbn in Hk; lia]. }
  assert (A : forall e, In e l -> In (ev_pubkey e) (oslice (f_authors f))).
  { intros e He. destruct (HM' e He) as (_ & _ & H & _). unfold olen in Ha. destruct (f_authors f); [exact H|cbn in Ha; lia]. }
  destruct (forallb is_replaceable_kind (oslice (f_kinds f))) eqn:ER.
  { rewrite forallb_forall in ER.
    unfold olen. rewrite <- Nat2Z.inj_mul. apply inj_le. rewrite <- prod_length.
    apply (keyed_length (fun e => (ev_pubkey e, ev_kind e))); [exact ND| |].
    - intros a b Ia Ib E. injection E as E1 E2. apply R2; auto.
    - intros e He. apply in_prod; auto. }
  cbv zeta in *.
  destruct (Z.ltb_spec 0 (olen match assoc (B "d") (f_tags f) with Some o => o | None => None end)) as [Hd|Hd]; [|lia].
  destruct (assoc (B "d") (f_tags f)) as [[ds|]|] eqn:ED; cbn in Hd; try lia.
  destruct (forallb is_addressable_kind (oslice (f_kinds f))) eqn:EA; [|lia].
  rewrite forallb_forall in EA. apply assoc_In in ED.
  unfold olen. rewrite <- !Nat2Z.inj_mul. apply inj_le. cbn [oslice]. rewrite <- !prod_length.
  apply (keyed_length (fun e => (ev_pubkey e, ev_kind e, get_d (ev_tags e)))); [exact ND| |].
  - intros a b Ia Ib E. injection E as E1 E2 E3. apply R3; auto.
  - intros e He. repeat apply in_prod; auto.
    destruct (HM' e He) as (_ & _ & _ & H & _). destruct (H _ _ ED) as (v & r & Hv1 & Hv2).
    rewrite <- (HD e He v r Hv1). exact Hv2.
Qed.
Print Assumptions C12_theoretical_limit_partial.

Example C12_example :
  let f := mkFilter None (Some [30000; 30001]%Z) (Some [B "a"; B "b"]) [(B "d", Some [B "x"; B "y"; B "z"])] None None 0 [] false in
  let e := mkEvent (B "1") (B "a") 0 30000 [[B "d"; B "x"]] [] [] in
  theoretical_limit f = 12%Z /\ relay_set [e] /\ filter_matches f (Some e) = true /\ one_d e.
Proof.
  cbv zeta. split; [vm_compute; reflexivity|]. split; [|split; [vm_compute; reflexivity|]].
  - repeat split.
    + constructor; [intros []|constructor].
    + intros a b [<-|[]] [<-|[]]; reflexivity.
    + intros a b [<-|[]] [<-|[]]; reflexivity.
  - intros v r [H|[]]. injection H as <- _. reflexivity.
Qed.
