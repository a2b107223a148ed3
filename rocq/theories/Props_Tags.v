(** C13-C16: tag lookup, filtering, AppendUnique and cloning. *)
From Verif Require Import Base EventModel TagsModel TagsProofs.

(** The specification: a tag has a name and a value when it has at least two items. *)
Definition has_name (key : str) (t : tag) : Prop := exists v rest, t = key :: v :: rest.
Definition has_name_value (key value : str) (t : tag) : Prop := exists rest, t = key :: value :: rest.

(** x is the first (last) element of l with property P *)
Definition is_first {A} (P : A -> Prop) (l : list A) (x : A) : Prop :=
  exists a b, l = a ++ x :: b /\ P x /\ forall y, In y a -> ~ P y.
Definition is_last {A} (P : A -> Prop) (l : list A) (x : A) : Prop :=
  exists a b, l = a ++ x :: b /\ P x /\ forall y, In y b -> ~ P y.

Lemma named_iff key t : named key t = true <-> has_name key t.
Proof.
  unfold has_name. destruct t as [|k [|v t]]; cbn [named].
  - split; [discriminate|]. intros (v & r & E); discriminate.
  - split; [discriminate|]. intros (v & r & E); discriminate.
  - rewrite seqb_eq. split; [intros ->; eauto|intros (v' & r & E); congruence].
Qed.

Lemma named_value_iff key value t : named_value key value t = true <-> has_name_value key value t.
Proof.
  unfold has_name_value. destruct t as [|k [|v t]]; cbn [named_value].
  - split; [discriminate|]. intros (r & E); discriminate.
  - split; [discriminate|]. intros (r & E); discriminate.
  - rewrite andb_true_iff, !seqb_eq. split; [intros [-> ->]; eauto|intros (r & E); injection E; auto].
Qed.

Lemma find_first {A} (f : A -> bool) (P : A -> Prop) l : (forall x, f x = true <-> P x) ->
  (forall x, find f l = Some x <-> is_first P l x) /\ (find f l = None <-> forall x, In x l -> ~ P x).
Proof.
  intro HP.
  assert (Hf : forall x, f x = false <-> ~ P x).
  { intro x. rewrite <- HP. destruct (f x); split; congruence. }
  split.
  - intro x. rewrite find_split. unfold is_first.
    split; intros (a & b & E & Hx & Ha); exists a, b; (split; [exact E|split; [apply HP; exact Hx|]]).
    + intros y Hy. apply Hf. rewrite Forall_forall in Ha. auto.
    + rewrite Forall_forall. intros y Hy. apply Hf. auto.
  - rewrite find_none_iff, Forall_forall. split; intros H x Hx; [apply Hf|apply Hf]; auto.
Qed.

Lemma find_rev_last {A} (f : A -> bool) (P : A -> Prop) l : (forall x, f x = true <-> P x) ->
  (forall x, find f (rev l) = Some x <-> is_last P l x) /\ (find f (rev l) = None <-> forall x, In x l -> ~ P x).
Proof.
  intro HP. destruct (find_first f P (rev l) HP) as [H1 H2]. split.
  - intro x. rewrite H1. unfold is_first, is_last. split.
    + intros (a & b & E & Hx & Ha). exists (rev b), (rev a).
      split; [|split; [exact Hx|intros y Hy; apply Ha, in_rev, Hy]].
      rewrite <- (rev_involutive l), E, rev_app_distr. cbn [rev]. rewrite <- app_assoc. reflexivity.
    + intros (a & b & E & Hx & Ha). exists (rev b), (rev a).
      split; [|split; [exact Hx|intros y Hy; apply Ha, in_rev, Hy]].
      rewrite E, rev_app_distr. cbn [rev]. rewrite <- app_assoc. reflexivity.
  - rewrite H2. split; intros H x Hx; apply H.
    + apply in_rev. rewrite rev_involutive. exact Hx.
    + apply in_rev, Hx.
Qed.

Definition ex_tags : list tag :=
  [[B "e"]; [B "e"; B "1"; B "r"]; [B "d"; B "x"]; [B "e"; B "2"]; [B "e"; B "1"]; [B "d"; B "y"]; []].

(** ** C13 *)
Theorem C13_find_first : forall ts key,
  (forall t, find_tag ts key = Some t <-> is_first (has_name key) ts t) /\
  (find_tag ts key = None <-> forall t, In t ts -> ~ has_name key t).
Proof. intros ts key. rewrite find_tag_find. apply find_first, named_iff. Qed.
Print Assumptions C13_find_first.

Theorem C13_find_with_value_first : forall ts key value,
  (forall t, find_with_value ts key value = Some t <-> is_first (has_name_value key value) ts t) /\
  (find_with_value ts key value = None <-> forall t, In t ts -> ~ has_name_value key value t).
Proof. intros ts key value. rewrite find_with_value_find. apply find_first, named_value_iff. Qed.
Print Assumptions C13_find_with_value_first.

Theorem C13_find_last : forall ts key,
  (forall t, find_last ts key = Some t <-> is_last (has_name key) ts t) /\
  (find_last ts key = None <-> forall t, In t ts -> ~ has_name key t).
Proof. intros ts key. rewrite find_last_find. apply find_rev_last, named_iff. Qed.
Print Assumptions C13_find_last.

Theorem C13_find_last_with_value : forall ts key value,
  (forall t, find_last_with_value ts key value = Some t <-> is_last (has_name_value key value) ts t) /\
  (find_last_with_value ts key value = None <-> forall t, In t ts -> ~ has_name_value key value t).
Proof. intros ts key value. rewrite find_last_with_value_find. apply find_rev_last, named_value_iff. Qed.
Print Assumptions C13_find_last_with_value.

(** "r is the subsequence of l of the elements with property P" *)
Inductive selects {A} (P : A -> Prop) : list A -> list A -> Prop :=
| sel_nil : selects P [] []
| sel_keep x l r : P x -> selects P l r -> selects P (x :: l) (x :: r)
| sel_drop x l r : ~ P x -> selects P l r -> selects P (x :: l) r.

Lemma filter_selects {A} (f : A -> bool) (P : A -> Prop) l : (forall x, f x = true <-> P x) -> selects P l (filter f l).
Proof.
  intro HP. induction l as [|x l IH]; cbn [filter]; [constructor|].
  destruct (f x) eqn:E; constructor; try assumption.
  - apply HP, E.
  - rewrite <- HP. congruence.
Qed.

Theorem C13_find_all_in_order : forall ts key, selects (has_name key) ts (find_all ts key).
Proof. intros. rewrite find_all_filter. apply filter_selects, named_iff. Qed.
Print Assumptions C13_find_all_in_order.

Theorem C13_get_d_first_value : forall ts,
  (forall v rest, is_first (has_name (B "d")) ts (B "d" :: v :: rest) -> get_d ts = v) /\
  ((forall t, In t ts -> ~ has_name (B "d") t) -> get_d ts = []).
Proof.
  intro ts. rewrite get_d_find. destruct (find_first (named (B "d")) (has_name (B "d")) ts (named_iff _)) as [H1 H2].
  split.
  - intros v rest H. apply H1 in H. rewrite H. reflexivity.
  - intro H. apply H2 in H. rewrite H. reflexivity.
Qed.
Print Assumptions C13_get_d_first_value.

Example C13_example :
  find_tag ex_tags (B "e") = Some [B "e"; B "1"; B "r"] /\ find_last ex_tags (B "e") = Some [B "e"; B "1"] /\
  find_with_value ex_tags (B "e") (B "2") = Some [B "e"; B "2"] /\
  find_last_with_value ex_tags (B "e") (B "1") = Some [B "e"; B "1"] /\ get_d ex_tags = B "x" /\
  length (find_all ex_tags (B "e")) = 3 /\ find_tag ex_tags (B "p") = None.
Proof. vm_compute. repeat split; reflexivity. Qed.

(** ** C14 *)
(** "t starts with p": all items of p but the last are equal to t's, the last is a byte prefix. *)
Definition tag_begins (t p : tag) : Prop :=
  exists q l rest tail, p = q ++ [l] /\ t = q ++ (l ++ tail) :: rest.

Lemma tag_begins_starts t p : tag_starts t p <-> tag_begins t p.
Proof.
  unfold tag_starts, tag_begins. split.
  - intros (q & l & x & E1 & rest & E2 & y & E3). subst. exists q, l, rest, y. auto.
  - intros (q & l & rest & y & E1 & E2). exists q, l, (l ++ y). split; [exact E1|]. exists rest. split; [exact E2|]. eauto.
Qed.

Lemma sw_begins p t : p <> [] -> (sw p t = true <-> tag_begins t p).
Proof. intro H. rewrite sw_spec by exact H. apply tag_begins_starts. Qed.

(** GetFirst and GetLast: the first and the last tag that starts with the prefix. *)
Theorem C14_get_first_last : forall ts p, p <> [] ->
  exists first last, get_first ts p = Ok first /\ get_last ts p = Ok last /\
    (forall t, first = Some t <-> is_first (fun t => tag_begins t p) ts t) /\
    (forall t, last = Some t <-> is_last (fun t => tag_begins t p) ts t) /\
    (first = None <-> forall t, In t ts -> ~ tag_begins t p) /\ (last = None <-> forall t, In t ts -> ~ tag_begins t p).
Proof.
  intros ts p H. exists (find (sw p) ts), (find (sw p) (rev ts)). split; [apply get_first_find, H|]. split; [apply get_first_find, H|].
  destruct (find_first (sw p) (fun t => tag_begins t p) ts (fun t => sw_begins p t H)) as [A1 A2].
  destruct (find_rev_last (sw p) (fun t => tag_begins t p) ts (fun t => sw_begins p t H)) as [B1 B2].
  repeat split; try apply A1; try apply B1; try apply A2; try apply B2.
Qed.
Print Assumptions C14_get_first_last.
Example C14_get_example : get_first ex_tags [B "e"; []] = Ok (Some [B "e"; B "1"; B "r"]) /\ get_last ex_tags [B "e"; []] = Ok (Some [B "e"; B "1"]).
Proof. vm_compute. split; reflexivity. Qed.

Theorem C14_filter_out : forall ts p, p <> [] ->
  exists kept dropped inplace,
    filter_out ts p = Ok kept /\ get_all ts p = Ok dropped /\ filter_out_in_place ts p = Ok inplace /\
    selects (fun t => ~ tag_begins t p) ts kept /\
    selects (fun t => tag_begins t p) ts dropped /\
    Permutation inplace kept /\ Permutation ts (kept ++ dropped).
Proof.
  intros ts p H. destruct (filter_out_in_place_perm ts p H) as (r & E & P).
  exists (filter (fun t => negb (sw p t)) ts), (filter (sw p) ts), r.
  rewrite filter_out_filter, get_all_filter by exact H.
  repeat split; [exact E| | |exact P|].
  - apply filter_selects. intro t. rewrite <- sw_begins by exact H. destruct (sw p t); cbn; split; congruence.
  - apply filter_selects. intro t. apply sw_begins, H.
  - clear. induction ts as [|t ts IH]; [constructor|]. cbn [filter]. destruct (sw p t); cbn [negb].
    + apply Permutation_cons_app. exact IH.
    + cbn [app]. constructor. exact IH.
Qed.
Print Assumptions C14_filter_out.

Example C14_example :
  filter_out ex_tags [B "e"; []] = Ok [[B "e"]; [B "d"; B "x"]; [B "d"; B "y"]; []] /\
  get_all ex_tags [B "e"; []] = Ok [[B "e"; B "1"; B "r"]; [B "e"; B "2"]; [B "e"; B "1"]] /\
  filter_out_in_place ex_tags [B "e"; []] = Ok [[B "e"]; []; [B "d"; B "x"]; [B "d"; B "y"]].
Proof. vm_compute. repeat split; reflexivity. Qed.

(** An empty prefix panics as soon as there is a tag. *)
Theorem C14_empty_prefix_panics_refuted : exists ts, filter_out ts [] = Panic.
Proof. exists [[B "e"]]. vm_compute. reflexivity. Qed.
Print Assumptions C14_empty_prefix_panics_refuted.

(** ** C15 *)
(** "A tag that is not yet in the list is added" is false: AppendUnique compares the value by prefix. *)
Theorem C15_append_unique_refuted : exists ts t,
  ~ In t ts /\ (exists ts', append_unique ts t = Ok ts' /\ ~ In t ts').
Proof.
  exists [[B "e"; B "abcd"]], [B "e"; B "abc"]. split.
  - intros [H|[]]. discriminate H.
  - eexists. split; [vm_compute; reflexivity|]. intros [H|[]]. discriminate H.
Qed.
Print Assumptions C15_append_unique_refuted.

(** An empty tag panics. *)
Theorem C15_append_empty_panics_refuted : exists ts, append_unique ts [] = Panic.
Proof. exists [[B "e"]]. vm_compute. reflexivity. Qed.
Print Assumptions C15_append_empty_panics_refuted.

(** What holds for every non-empty tag: the old tags stay, in order, at most the tag itself is added at the
    end, it is added exactly when no tag begins with its first (at most two) items, and a second call changes nothing.
    Missing from the full claim: the result need not contain the tag. *)
Theorem C15_append_unique_partial : forall ts t, t <> [] ->
  exists ts', append_unique ts t = Ok ts' /\ append_unique ts' t = Ok ts' /\
    ((ts' = ts /\ exists u, In u ts /\ tag_begins u (firstn 2 t)) \/
     (ts' = ts ++ [t] /\ forall u, In u ts -> ~ tag_begins u (firstn 2 t))).
Proof.
  intros ts t Ht.
  assert (Hn : (if Nat.ltb 2 (length t) then 2 else length t) = Nat.min 2 (length t)).
  { destruct (Nat.ltb_spec 2 (length t)); lia. }
  assert (Hf : firstn (Nat.min 2 (length t)) t = firstn 2 t).
  { destruct t as [|a [|b t]]; reflexivity. }
  assert (Hp : firstn 2 t <> []) by (destruct t; [contradiction|discriminate]).
  assert (Hself : sw (firstn 2 t) t = true).
  { apply sw_begins; [exact Hp|]. destruct (list_snoc _ Hp) as (q & l & E).
    exists q, l, (skipn 2 t), []. split; [exact E|]. rewrite app_nil_r.
    rewrite <- (firstn_skipn 2 t) at 1. rewrite E, <- app_assoc. reflexivity. }
  assert (HU : forall l, append_unique l t = Ok (match find (sw (firstn 2 t)) l with None => l ++ [t] | Some _ => l end)).
  { intro l. unfold append_unique. rewrite Hn, Hf, get_first_find by exact Hp. reflexivity. }
  rewrite HU. destruct (find (sw (firstn 2 t)) ts) as [u|] eqn:E.
  - exists ts. split; [reflexivity|]. split; [rewrite HU, E; reflexivity|]. left. split; [reflexivity|].
    apply find_some in E as [Hu Hs]. exists u. split; [exact Hu|]. apply sw_begins; assumption.
  - exists (ts ++ [t]). split; [reflexivity|]. split.
    + rewrite HU, find_app, E. cbn [find]. rewrite Hself. reflexivity.
    + right. split; [reflexivity|]. intros u Hu Hb. apply sw_begins in Hb; [|exact Hp].
      pose proof (find_none _ _ E u Hu). congruence.
Qed.
Print Assumptions C15_append_unique_partial.

(** The intended use: names and values such that no value is a proper prefix of another (for instance 64-digit
    keys and ids). Then the tag is added exactly when no tag with its name and value is present. *)
Theorem C15_append_unique_same_length_partial : forall ts k v rest,
  (forall v' rest', In (k :: v' :: rest') ts -> length v' = length v) ->
  exists ts', append_unique ts (k :: v :: rest) = Ok ts' /\
    (exists rest', In (k :: v :: rest') ts') /\
    ((exists r, In (k :: v :: r) ts) -> ts' = ts) /\
    ((forall r, ~ In (k :: v :: r) ts) -> ts' = ts ++ [k :: v :: rest]).
Proof.
  intros ts k v rest HL.
  assert (Hb : forall u, In u ts -> (tag_begins u [k; v] <-> exists r, u = k :: v :: r)).
  { intros u Hu. split.
    - intros (q & l & r & y & E & ->).
      destruct q as [|k0 [|k1 q]]; [discriminate| |destruct q; discriminate].
      injection E as <- <-. cbn [app] in Hu |- *. specialize (HL _ _ Hu). rewrite app_length in HL.
      destruct y; [rewrite app_nil_r; eauto|cbn in HL; lia].
    - intros (r & ->). exists [k], v, r, []. rewrite app_nil_r. auto. }
  destruct (C15_append_unique_partial ts (k :: v :: rest)) as (ts' & E & _ & H); [discriminate|].
  exists ts'. split; [exact E|]. cbn [firstn] in H.
  destruct H as [(-> & u & Hu & Hbu)|(-> & Hno)].
  - apply Hb in Hbu as (r & ->); [|exact Hu]. split; [eauto|]. split; [reflexivity|].
    intro Hn. exfalso. eapply Hn; eauto.
  - split; [exists rest; apply in_or_app; right; left; reflexivity|]. split; [|reflexivity].
    intros (r & Hr). exfalso. apply (Hno _ Hr). apply Hb; [exact Hr|eauto].
Qed.
Print Assumptions C15_append_unique_same_length_partial.

Example C15_example :
  (forall v' rest', In (B "e" :: v' :: rest') [[B "p"; B "ab"]; [B "e"; B "12"]] -> length v' = length (B "34")) /\
  append_unique [[B "p"; B "ab"]; [B "e"; B "12"]] [B "e"; B "34"] = Ok [[B "p"; B "ab"]; [B "e"; B "12"]; [B "e"; B "34"]] /\
  append_unique [[B "p"; B "ab"]; [B "e"; B "12"]] [B "e"; B "12"; B "x"] = Ok [[B "p"; B "ab"]; [B "e"; B "12"]].
Proof.
  repeat split; try (vm_compute; reflexivity).
  intros v r H. destruct H as [H|[H|[]]]; [discriminate H|injection H as <- _; reflexivity].
Qed.

(** ** C16 *)
Theorem C16_tag_clone_refuted : exists t, tag_clone t <> t.
Proof. exists [B "e"]. discriminate. Qed.
Print Assumptions C16_tag_clone_refuted.

(** Tags.Clone and CloneDeep always return the empty value, whatever the tags (and have type Tag). *)
Theorem C16_tags_clone_always_empty : forall ts, tags_clone ts = [] /\ tags_clone_deep ts = [].
Proof. intro ts. split; reflexivity. Qed.
Print Assumptions C16_tags_clone_always_empty.
Theorem C16_tags_clone_refuted : exists ts : list tag, ts <> [] /\ tags_clone ts = [] /\ tags_clone_deep ts = [].
Proof. exists [[B "e"; B "1"]]. repeat split. discriminate. Qed.
Print Assumptions C16_tags_clone_refuted.
