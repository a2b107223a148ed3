(** C61, C63, C64 and C79 to C84: loaders, lists and helpers of the sdk. *)
From Verif Require Import Base Machine EventModel TagsModel FilterModel Nip19Model StoreModel StoreProofs ListsModel.
Import ListNotations.

(** ** C61. The first to arrive of the newest with [P]. *)
Definition first_newest (P : event -> Prop) (l : list event) (e : event) : Prop :=
  exists pre post, l = pre ++ e :: post /\ P e /\ (forall e', In e' pre -> P e' -> (ev_created_at e' < ev_created_at e)%Z) /\ (forall e', In e' post -> P e' -> (ev_created_at e' <= ev_created_at e)%Z).
Lemma first_newest_snoc (P : event -> Prop) l x e : first_newest P l e -> (P x -> (ev_created_at x <= ev_created_at e)%Z) -> first_newest P (l ++ [x]) e.
Proof.
  intros (pre & post & -> & H1 & H2 & H3) HX. exists pre, (post ++ [x]). rewrite <- app_assoc. split; [reflexivity|]. split; [exact H1|]. split; [exact H2|].
  intros e' H Q. apply in_app_or in H as [H|[<-|[]]]; auto.
Qed.
Lemma first_newest_new (P : event -> Prop) l x : P x -> (forall e', In e' l -> P e' -> (ev_created_at e' < ev_created_at x)%Z) -> first_newest P (l ++ [x]) x.
Proof. intros H1 H2. exists l, []. split; [reflexivity|]. split; [exact H1|]. split; [exact H2|intros ? []]. Qed.
Lemma first_newest_max P l e e' : first_newest P l e -> In e' l -> P e' -> (ev_created_at e' <= ev_created_at e)%Z.
Proof. intros (pre & post & -> & _ & H2 & H3) H Q. apply in_app_or in H as [H|[<-|H]]; [specialize (H2 _ H Q); lia|lia|auto]. Qed.
Lemma first_newest_in P l e : first_newest P l e -> In e l /\ P e.
Proof. intros (pre & post & -> & H & _). split; [apply in_or_app; right; left; reflexivity|exact H]. Qed.
Lemma first_newest_unique P l e e' : first_newest P l e -> first_newest P l e' -> e = e'.
Proof.
  intros (p1 & q1 & E1 & A1 & B1 & C1) (p2 & q2 & E2 & A2 & B2 & C2). revert p2 E2 B2. subst l. revert B1. induction p1 as [|x p1 IH]; intros B1 p2 E2 B2; destruct p2 as [|y p2]; cbn [app] in E2.
  - congruence.
  - injection E2 as -> ->. specialize (B2 y (or_introl eq_refl) A1). assert (H : In e' (p2 ++ e' :: q2)) by (apply in_or_app; right; left; reflexivity). specialize (C1 e' H A2). lia.
  - injection E2 as -> <-. specialize (B1 e' (or_introl eq_refl) A2). assert (H : In e (p1 ++ e :: q1)) by (apply in_or_app; right; left; reflexivity). specialize (C2 e H A1). lia.
  - injection E2 as -> E2. eapply IH; [intros z Z; apply B1; right; exact Z|exact E2|intros z Z; apply B2; right; exact Z].
Qed.

(** For every key: the newest event received with that author, the first to arrive when there are several. *)
Theorem C61_replaceable_newest received pk : match assoc pk (repl_load received) with
  | Some e => first_newest (fun x => ev_pubkey x = pk) received e
  | None => forall e, In e received -> ev_pubkey e <> pk
  end.
Proof.
  unfold repl_load. induction received as [|x received IH] using rev_ind; [cbn; auto|]. rewrite fold_left_app. cbn [fold_left]. set (m := fold_left repl_step received []) in *. unfold repl_step.
  assert (MS : assoc pk (mset (ev_pubkey x) x m) = if seqb pk (ev_pubkey x) then Some x else assoc pk m) by apply assoc_mset.
  destruct (seqb_spec pk (ev_pubkey x)) as [->|N].
  - destruct (assoc (ev_pubkey x) m) as [v|] eqn:E.
    + destruct (Z.ltb_spec (ev_created_at v) (ev_created_at x)) as [L|L].
      * rewrite MS. apply first_newest_new; [reflexivity|]. intros e' H Q. pose proof (first_newest_max _ _ _ _ IH H Q). lia.
      * rewrite E. apply first_newest_snoc; [exact IH|auto].
    + rewrite MS. apply first_newest_new; [reflexivity|]. intros e' H Q. destruct (IH e' H Q).
  - assert (Q : assoc pk (match assoc (ev_pubkey x) m with Some v => if (ev_created_at v <? ev_created_at x)%Z then mset (ev_pubkey x) x m else m | None => mset (ev_pubkey x) x m end) = assoc pk m)
      by (destruct (assoc (ev_pubkey x) m) as [v|]; [destruct (_ <? _)%Z|]; congruence).
    rewrite Q. destruct (assoc pk m) as [v|]; [apply first_newest_snoc; [exact IH|congruence]|]. intros e H. apply in_app_or in H as [H|[<-|[]]]; [auto|congruence].
Qed.
Print Assumptions C61_replaceable_newest.
Definition ev0 (id pk : string) (ts : Z) (d : string) : event := mkEvent (B id) (B pk) ts 30000 [[B "d"; B d]] [] [].
Example C61_replaceable_example : assoc (B "alice") (repl_load [ev0 "1" "alice" 5 ""; ev0 "2" "bob" 9 ""; ev0 "3" "alice" 8 ""; ev0 "4" "alice" 8 ""; ev0 "5" "alice" 2 ""]) = Some (ev0 "3" "alice" 8 "").
Proof. vm_compute. reflexivity. Qed.

Lemma addr_insert_spec (P : event -> Prop) l events x : (forall e, In e events <-> first_newest (fun y => P y /\ get_d (ev_tags y) = get_d (ev_tags e)) l e) -> NoDup (map (fun e => get_d (ev_tags e)) events) -> P x ->
  (forall y, In y l -> P y -> exists e, In e events /\ get_d (ev_tags e) = get_d (ev_tags y)) ->
  (forall e, In e (addr_insert x events) <-> first_newest (fun y => P y /\ get_d (ev_tags y) = get_d (ev_tags e)) (l ++ [x]) e) /\ NoDup (map (fun e => get_d (ev_tags e)) (addr_insert x events)).
Proof.
  set (d := fun e => get_d (ev_tags e)) in *. intros H ND PX COV.
  (* where the event goes *)
  assert (W : (exists a o b, events = a ++ o :: b /\ d o = d x /\ addr_insert x events = a ++ (if (ev_created_at o <? ev_created_at x)%Z then x else o) :: b) \/ (~ In (d x) (map d events) /\ addr_insert x events = events ++ [x])).
  { clear H COV ND. induction events as [|o events IH]; [right; split; [intros []|reflexivity]|]. cbn [addr_insert]. fold (d o) (d x). destruct (seqb_spec (d o) (d x)) as [E|N].
    - left. exists [], o, events. split; [reflexivity|]. split; [exact E|]. destruct (_ <? _)%Z; reflexivity.
    - destruct IH as [(a & o' & b & E1 & E2 & E3)|[E1 E2]].
      + left. exists (o :: a), o', b. split; [rewrite E1; reflexivity|]. split; [exact E2|]. rewrite E3. reflexivity.
      + right. split; [intros [Q|Q]; congruence || auto|]. rewrite E2. reflexivity. }
  assert (OTHER : forall e, d e <> d x -> In e events <-> first_newest (fun y => P y /\ d y = d e) (l ++ [x]) e).
  { intros e N. rewrite H. split.
    - intro F. apply first_newest_snoc; [exact F|]. intros [_ Q]. congruence.
    - intros (pre & post & E & A1 & A2 & A3). destruct post as [|z post] using rev_ind.
      + apply app_inj_tail in E as [_ <-]. congruence.
      + change (pre ++ e :: post ++ [z]) with (pre ++ (e :: post) ++ [z]) in E. rewrite app_assoc in E. apply app_inj_tail in E as [-> <-]. exists pre, post. split; [reflexivity|]. split; [exact A1|]. split; [exact A2|]. intros e' HI. apply A3. apply in_or_app. auto. }
  assert (UNSNOC : forall e, first_newest (fun y => P y /\ d y = d e) (l ++ [x]) e -> (e = x /\ forall e', In e' l -> P e' -> d e' = d e -> (ev_created_at e' < ev_created_at x)%Z) \/ (first_newest (fun y => P y /\ d y = d e) l e /\ (d e = d x -> (ev_created_at x <= ev_created_at e)%Z))).
  { intros e (pre & post & E & A1 & A2 & A3). destruct post as [|z post] using rev_ind.
    - apply app_inj_tail in E as [-> <-]. left. split; [reflexivity|]. intros e' HI HP HD. apply A2; auto.
    - change (pre ++ e :: post ++ [z]) with (pre ++ (e :: post) ++ [z]) in E. rewrite app_assoc in E. apply app_inj_tail in E as [-> <-]. right. split.
      + exists pre, post. split; [reflexivity|]. split; [exact A1|]. split; [exact A2|]. intros e' HI. apply A3. apply in_or_app. auto.
      + intro Q. apply A3; [apply in_or_app; right; left; reflexivity|]. auto. }
  destruct W as [(a & o & b & E1 & E2 & ->)|[N ->]].
  - assert (FO : first_newest (fun y => P y /\ d y = d o) l o) by (apply H; rewrite E1; apply in_or_app; right; left; reflexivity).
    assert (NDD : forall e, In e (a ++ b) -> d e <> d x).
    { intros e HI Q. rewrite E1, map_app in ND. cbn [map] in ND. apply NoDup_remove_2 in ND. apply ND. rewrite <- map_app. apply in_map_iff. exists e. split; [congruence|exact HI]. }
    split.
    + intro e. assert (S : In e (a ++ (if (ev_created_at o <? ev_created_at x)%Z then x else o) :: b) <-> e = (if (ev_created_at o <? ev_created_at x)%Z then x else o) \/ In e (a ++ b)) by (rewrite !in_app_iff; cbn [In]; intuition).
      rewrite S. split.
      * intros [->|HI].
        -- destruct (Z.ltb_spec (ev_created_at o) (ev_created_at x)) as [L|L].
           ++ apply first_newest_new; [auto|]. intros e' HI [HP HD]. assert (Q := first_newest_max _ _ _ _ FO HI). cbv beta in Q. rewrite E2 in Q. specialize (Q (conj HP HD)). lia.
           ++ apply first_newest_snoc; [exact FO|]. auto.
        -- apply OTHER; [apply NDD, HI|]. rewrite E1. rewrite in_app_iff in *. cbn [In]. intuition.
      * intro F. destruct (UNSNOC e F) as [[-> L]|[F' L]].
        -- left. assert (Q : (ev_created_at o < ev_created_at x)%Z) by (destruct (first_newest_in _ _ _ FO) as [I1 [I2 _]]; apply L; auto). apply Z.ltb_lt in Q. rewrite Q. reflexivity.
        -- destruct (seqb_spec (d e) (d x)) as [Q|Q].
           ++ left. assert (e = o). { eapply first_newest_unique; [exact F'|]. rewrite Q, <- E2. exact FO. } subst e. specialize (L Q). destruct (Z.ltb_spec (ev_created_at o) (ev_created_at x)); [lia|reflexivity].
           ++ right. apply H in F'. rewrite E1 in F'. apply in_app_or in F' as [F'|[<-|F']]; [apply in_or_app; auto|congruence|apply in_or_app; auto].
    + rewrite E1 in ND. rewrite map_app in *. cbn [map] in *. replace (d (if (ev_created_at o <? ev_created_at x)%Z then x else o)) with (d o) by (destruct (_ <? _)%Z; congruence). exact ND.
  - split.
    + intro e. rewrite in_app_iff. cbn [In]. split.
      * intros [HI|[<-|[]]].
        -- apply OTHER; [|exact HI]. intro Q. apply N. rewrite <- Q. apply in_map, HI.
        -- apply first_newest_new; [auto|]. intros e' HI [HP HD]. destruct (COV e' HI HP) as (o & O1 & O2). destruct N. assert (Q : d o = d x) by (unfold d in *; congruence). rewrite <- Q. apply in_map, O1.
      * intro F. destruct (UNSNOC e F) as [[-> _]|[F' _]]; [auto|]. left. apply H, F'.
    + rewrite map_app. cbn [map]. apply (NoDup_Add (a := d x) (l := map d events)); [|split; assumption]. pose proof (Add_app (d x) (map d events) []) as A. rewrite app_nil_r in A. exact A.
Qed.
(** For every key: exactly one event for each identifier that was received, the newest, the first to arrive of several. *)
Theorem C61_addressable_newest received pk : let l := match assoc pk (addr_load received) with Some l => l | None => [] end in
  NoDup (map (fun e => get_d (ev_tags e)) l) /\
  (forall e, In e l <-> first_newest (fun x => ev_pubkey x = pk /\ get_d (ev_tags x) = get_d (ev_tags e)) received e) /\
  (forall x, In x received -> ev_pubkey x = pk -> exists e, In e l /\ get_d (ev_tags e) = get_d (ev_tags x)).
Proof.
  cbv zeta. unfold addr_load. induction received as [|x received IH] using rev_ind.
  - cbn. split; [constructor|]. split; [|intros ? []]. intro e. split; [intros []|]. intros ([|? ?] & post & E & _); discriminate.
  - rewrite fold_left_app. cbn [fold_left]. set (m := fold_left addr_step received []) in *. destruct IH as (ND & IN & COV).
    assert (ST : forall q, assoc q (addr_step m x) = if seqb q (ev_pubkey x) then Some (addr_insert x (match assoc (ev_pubkey x) m with Some l => l | None => [] end)) else assoc q m).
    { intro q. unfold addr_step. destruct (assoc (ev_pubkey x) m) as [[|o l]|]; rewrite assoc_mset; reflexivity. }
    rewrite ST. destruct (seqb_spec pk (ev_pubkey x)) as [E|N].
    + destruct (addr_insert_spec (fun y => ev_pubkey y = pk) received (match assoc pk m with Some l => l | None => [] end) x IN ND (eq_sym E) COV) as [A1 A2]. rewrite <- E. split; [exact A2|]. split; [exact A1|].
      intros y HI HP. set (l := match assoc pk m with Some l => l | None => [] end) in *. assert (G : forall z, In (get_d (ev_tags z)) (map (fun e => get_d (ev_tags e)) l) \/ z = x -> exists e, In e (addr_insert x l) /\ get_d (ev_tags e) = get_d (ev_tags z)).
      { intros z. clear - l. induction l as [|o l IHl]; cbn [addr_insert map In].
        - intros [[]| ->]. exists x. auto.
        - destruct (seqb_spec (get_d (ev_tags o)) (get_d (ev_tags x))) as [Q|Q].
          + intros [[H|H]|H].
            * exists (if (ev_created_at o <? ev_created_at x)%Z then x else o). destruct (_ <? _)%Z; cbn [In]; split; auto; congruence.
            * apply in_map_iff in H as (e & H1 & H2). exists e. destruct (_ <? _)%Z; cbn [In]; auto.
            * subst z. exists (if (ev_created_at o <? ev_created_at x)%Z then x else o). destruct (_ <? _)%Z; cbn [In]; auto.
          + intros [[H|H]|H]; [exists o; cbn [In]; auto| |]; destruct IHl as (e & H1 & H2); auto; exists e; cbn [In]; auto. }
      apply in_app_or in HI as [HI|[<-|[]]]; [|apply G; auto]. destruct (COV y HI HP) as (e & H1 & H2). apply G. left. rewrite <- H2. apply in_map_iff. exists e. auto.
    + split; [exact ND|]. split.
      * intro e. rewrite IN. split.
        -- intro F. apply first_newest_snoc; [exact F|]. intros [Q _]. congruence.
        -- intros (pre & post & E & A1 & A2 & A3). destruct post as [|z post] using rev_ind.
           ++ apply app_inj_tail in E as [_ <-]. destruct A1. congruence.
           ++ change (pre ++ e :: post ++ [z]) with (pre ++ (e :: post) ++ [z]) in E. rewrite app_assoc in E. apply app_inj_tail in E as [-> <-]. exists pre, post. split; [reflexivity|]. split; [exact A1|]. split; [exact A2|]. intros e' HI. apply A3. apply in_or_app. auto.
      * intros y HI HP. apply in_app_or in HI as [HI|[<-|[]]]; [auto|congruence].
Qed.
Print Assumptions C61_addressable_newest.
Example C61_addressable_example : assoc (B "alice") (addr_load [ev0 "1" "alice" 5 "x"; ev0 "2" "alice" 5 "y"; ev0 "3" "bob" 9 "x"; ev0 "4" "alice" 8 "x"; ev0 "5" "alice" 2 "y"]) = Some [ev0 "4" "alice" 8 "x"; ev0 "2" "alice" 5 "y"].
Proof. vm_compute. reflexivity. Qed.
(** Of two events of the same second the first to arrive stays, not the one with the lower id: the result depends on the order. *)
Theorem C61_order_refuted : exists a b pk, ev_pubkey a = pk /\ ev_pubkey b = pk /\ assoc pk (repl_load [a; b]) <> assoc pk (repl_load [b; a]).
Proof. exists (ev0 "1" "alice" 5 ""), (ev0 "2" "alice" 5 ""), (B "alice"). split; [reflexivity|]. split; [reflexivity|]. vm_compute. discriminate. Qed.
Print Assumptions C61_order_refuted.

(** Each relay is asked once, for the keys that listed it. *)
Definition authors_for (r : str) (keys : list (str * list str)) : list str := flat_map (fun '(pk, rs) => map (fun _ => pk) (filter (fun x => seqb x r) rs)) keys.
Lemma add_author_assoc relay pk fs r : assoc r (add_author relay pk fs) = if seqb relay r then Some (match assoc r fs with Some l => l | None => [] end ++ [pk]) else assoc r fs.
Proof.
  induction fs as [|[q a] fs IH]; cbn [add_author assoc].
  - rewrite (seqb_sym r relay). destruct (seqb relay r); reflexivity.
  - destruct (seqb_spec q relay) as [->|N]; cbn [assoc].
    + rewrite (seqb_sym r relay). destruct (seqb relay r); reflexivity.
    + rewrite IH. destruct (seqb_spec r q) as [->|M]; [|reflexivity]. destruct (seqb_spec relay q); [congruence|reflexivity].
Qed.
Lemma add_author_keys relay pk fs : NoDup (map fst fs) -> NoDup (map fst (add_author relay pk fs)) /\ (forall x, In x (map fst (add_author relay pk fs)) -> x = relay \/ In x (map fst fs)).
Proof.
  induction fs as [|[q a] fs IH]; intro ND; cbn [add_author map fst].
  - split; [constructor; [intros []|constructor]|]. intros x [<-|[]]. auto.
  - inversion ND as [|y m N1 N2]; subst. destruct (seqb_spec q relay) as [->|NE]; cbn [map fst].
    + split; [exact ND|]. intros x H. auto.
    + destruct (IH N2) as [I1 I2]. split.
      * constructor; [|exact I1]. intro H. apply I2 in H as [H|H]; auto.
      * intros x [<-|H]; [right; left; reflexivity|]. apply I2 in H as [H|H]; [auto|right; right; exact H].
Qed.
Lemma add_key_spec pk rs fs r : match assoc r (fold_left (fun fs r => add_author r pk fs) rs fs) with Some l => l | None => [] end = match assoc r fs with Some l => l | None => [] end ++ map (fun _ => pk) (filter (fun x => seqb x r) rs).
Proof.
  revert fs. induction rs as [|x rs IH]; intro fs; cbn [fold_left filter]; [symmetry; apply app_nil_r|]. rewrite IH, add_author_assoc. destruct (seqb x r); [|reflexivity]. cbn [map]. rewrite <- app_assoc. reflexivity.
Qed.
Theorem C61_one_filter_per_relay keys : NoDup (map fst (relay_filters keys)) /\ forall r, match assoc r (relay_filters keys) with Some l => l | None => [] end = authors_for r keys.
Proof.
  unfold relay_filters. assert (G : forall keys fs, NoDup (map fst fs) -> NoDup (map fst (fold_left add_key keys fs)) /\ forall r, match assoc r (fold_left add_key keys fs) with Some l => l | None => [] end = match assoc r fs with Some l => l | None => [] end ++ authors_for r keys).
  { clear keys. induction keys as [|[pk rs] keys IH]; intros fs ND; cbn [fold_left]; [split; [exact ND|intro r; symmetry; apply app_nil_r]|].
    assert (ND' : NoDup (map fst (add_key fs (pk, rs)))). { unfold add_key. clear IH. revert fs ND. induction rs as [|x rs IHr]; intros fs ND; [exact ND|]. cbn [fold_left]. apply IHr, add_author_keys, ND. }
    destruct (IH _ ND') as [I1 I2]. split; [exact I1|]. intro r. rewrite I2. unfold add_key at 1. rewrite add_key_spec. unfold authors_for. cbn [flat_map]. rewrite <- app_assoc. reflexivity. }
  apply (G keys []). constructor.
Qed.
Print Assumptions C61_one_filter_per_relay.
Example C61_filters_example : relay_filters [(B "a", [B "r1"; B "r2"]); (B "b", [B "r2"; B "r3"]); (B "c", [B "r1"])] = [(B "r1", [B "a"; B "c"]); (B "r2", [B "a"; B "b"]); (B "r3", [B "b"])].
Proof. vm_compute. reflexivity. Qed.

(** ** C63. The items of a list: those that parse, the first of each value, in order. *)
Section C63.
Context {I : Type} (value : I -> str) (parse : tag -> option I).
Fixpoint parsed (tags : list tag) : list I := match tags with [] => [] | t :: r => match parse t with Some x => x :: parsed r | None => parsed r end end.
Fixpoint firsts (l : list I) : list I := match l with [] => [] | x :: r => x :: filter (fun y => negb (seqb (value x) (value y))) (firsts r) end.
Lemma parse_items_acc tags : forall acc, parse_items value parse tags acc = acc ++ filter (fun y => negb (existsb (fun i => seqb (value i) (value y)) acc)) (firsts (parsed tags)).
Proof.
  induction tags as [|t tags IH]; intro acc; cbn [parse_items parsed]; [symmetry; apply app_nil_r|]. destruct (parse t) as [x|]; [|apply IH]. cbn [firsts filter].
  assert (FF : forall (P Q : I -> bool) l, filter P (filter Q l) = filter (fun y => Q y && P y) l).
  { intros P Q l. induction l as [|y l IHl]; [reflexivity|]. cbn [filter]. destruct (Q y); cbn [filter andb]; [destruct (P y)|]; rewrite IHl; reflexivity. }
  destruct (existsb (fun i => seqb (value i) (value x)) acc) eqn:E; cbn [negb]; rewrite IH.
  - f_equal. rewrite FF. apply filter_ext_in. intros y _. destruct (seqb_spec (value x) (value y)) as [Q|Q]; cbn [negb andb]; [|reflexivity]. rewrite <- Q, E. reflexivity.
  - rewrite <- app_assoc. cbn [app]. f_equal. f_equal. rewrite FF. apply filter_ext. intro y. rewrite existsb_app. cbn [existsb]. rewrite orb_false_r, negb_orb, andb_comm. reflexivity.
Qed.
Lemma firsts_nodup l : NoDup (map value (firsts l)).
Proof.
  induction l as [|x l IH]; cbn [firsts map]; [constructor|]. constructor.
  - intro H. apply in_map_iff in H as (y & E & H). apply filter_In in H as [_ H]. rewrite E, seqb_refl in H. discriminate.
  - clear - IH. induction (firsts l) as [|y m IHm]; [constructor|]. cbn [map] in IH. inversion IH as [|z w N1 N2]; subst. cbn [filter]. destruct (negb _); [|auto]. cbn [map]. constructor; [|auto]. intro H. apply N1. apply in_map_iff in H as (w & <- & H). apply filter_In in H as [H _]. apply in_map, H.
Qed.
Lemma firsts_in l x : In x (firsts l) -> In x l.
Proof. induction l as [|y l IH]; [auto|]. cbn [firsts]. intros [->|H]; [left; reflexivity|]. apply filter_In in H as [H _]. right. auto. Qed.
Lemma firsts_value l x : In x l -> In (value x) (map value (firsts l)).
Proof.
  induction l as [|y l IH]; [intros []|]. intros [->|H]; cbn [firsts map]; [left; reflexivity|]. destruct (seqb_spec (value y) (value x)) as [E|N]; [left; exact E|]. right. apply in_map_iff. apply IH in H. apply in_map_iff in H as (z & E & H). exists z. split; [exact E|]. apply filter_In. split; [exact H|]. rewrite E. destruct (seqb_spec (value y) (value x)); [congruence|reflexivity].
Qed.
Lemma parsed_in tags x : In x (parsed tags) <-> exists t, In t tags /\ parse t = Some x.
Proof.
  induction tags as [|t tags IH]; cbn [parsed]; [split; [intros []|intros (? & [] & _)]|]. destruct (parse t) as [y|] eqn:E; cbn [In]; rewrite IH; split.
  - intros [->|(u & H & Q)]; [exists t; auto|exists u; auto].
  - intros (u & [->|H] & Q); [left; congruence|eauto].
  - intros (u & H & Q); eauto.
  - intros (u & [->|H] & Q); [congruence|eauto].
Qed.
Theorem C63_items tags : parse_items value parse tags [] = firsts (parsed tags).
Proof. rewrite parse_items_acc. cbn [app existsb negb]. induction (firsts (parsed tags)) as [|x l IH]; [reflexivity|]. cbn [filter]. rewrite IH. reflexivity. Qed.
Theorem C63_items_once tags : NoDup (map value (parse_items value parse tags [])).
Proof. rewrite C63_items. apply firsts_nodup. Qed.
Theorem C63_every_value tags v : In v (map value (parse_items value parse tags [])) <-> exists t x, In t tags /\ parse t = Some x /\ value x = v.
Proof.
  rewrite C63_items. split.
  - intro H. apply in_map_iff in H as (x & <- & H). apply firsts_in, parsed_in in H as (t & H & Q). eauto.
  - intros (t & x & H & Q & <-). apply firsts_value, parsed_in. eauto.
Qed.
End C63.
Print Assumptions C63_items. Print Assumptions C63_items_once. Print Assumptions C63_every_value.

(** The follows are the valid keys of the p tags. *)
Theorem C63_follows parse_ok url_ok normalize trim tags pk :
  In pk (map pr_pubkey (parse_items pr_pubkey (parse_profile_ref parse_ok url_ok normalize trim) tags [])) <-> valid_pubkey parse_ok pk = true /\ exists rest, In (B "p" :: pk :: rest) tags.
Proof.
  rewrite C63_every_value. split.
  - intros (t & x & H & Q & E). destruct t as [|k [|p rest]]; try discriminate. cbn [parse_profile_ref] in Q. destruct (seqb_spec k (B "p")) as [->|]; [|discriminate]. destruct (valid_pubkey parse_ok p) eqn:V; [|discriminate]. cbn [negb] in Q.
    assert (pk = p) as -> by (destruct rest; injection Q as <-; symmetry; exact E). eauto.
  - intros [V [rest H]]. exists (B "p" :: pk :: rest). eexists. split; [exact H|]. cbn [parse_profile_ref]. rewrite seqb_refl, V. cbn [negb]. split; [reflexivity|]. destruct rest; reflexivity.
Qed.
Print Assumptions C63_follows.
Theorem C63_topics tags v : In v (parse_items (fun x => x) parse_topic tags []) <-> v <> [] /\ exists rest, In (B "t" :: v :: rest) tags.
Proof.
  rewrite <- (map_id (parse_items _ _ _ _)), C63_every_value. split.
  - intros (t & x & H & Q & E). destruct t as [|k [|u rest]]; try discriminate. cbn [parse_topic] in Q. destruct (seqb_spec u []) as [|N]; [discriminate|]. destruct (seqb_spec k (B "t")) as [->|]; [|discriminate]. injection Q as <-. subst v. eauto.
  - intros [N [rest H]]. exists (B "t" :: v :: rest), v. split; [exact H|]. cbn [parse_topic]. rewrite seqb_refl. destruct (seqb_spec v []); [congruence|]. auto.
Qed.
Print Assumptions C63_topics.
Theorem C63_relay_urls relay_ok normalize tags v : In v (parse_items (fun x => x) (parse_relay_url relay_ok normalize) tags []) <-> exists u rest, In (B "relay" :: u :: rest) tags /\ u <> [] /\ relay_ok u = true /\ v = normalize u.
Proof.
  rewrite <- (map_id (parse_items _ _ _ _)), C63_every_value. split.
  - intros (t & x & H & Q & E). destruct t as [|k [|u rest]]; try discriminate. cbn [parse_relay_url] in Q. destruct (seqb_spec u []) as [|N]; [discriminate|]. destruct (seqb_spec k (B "relay")) as [->|]; [|discriminate]. cbn [negb andb] in Q. destruct (relay_ok u) eqn:R; [|discriminate]. injection Q as <-. subst v. eauto 6.
  - intros (u & rest & H & N & R & ->). exists (B "relay" :: u :: rest), (normalize u). split; [exact H|]. cbn [parse_relay_url]. rewrite seqb_refl, R. destruct (seqb_spec u []); [congruence|]. auto.
Qed.
Print Assumptions C63_relay_urls.
Example C63_example : map pr_pubkey (parse_items pr_pubkey (parse_profile_ref (fun b => Nat.eqb (length b) 2) (fun _ => true) (fun x => x) (fun x => x)) [[B "p"; B "abcd"; B "wss://x"]; [B "e"; B "0123"]; [B "p"; B "zz"]; [B "p"; B "0123"]; [B "p"; B "abcd"]] []) = [B "abcd"; B "0123"].
Proof. vm_compute. reflexivity. Qed.
(** The list of kind 10002 (NIP-65): no marker or "read" means the relay is read from, no marker or "write" that it is written to. *)
Definition reads (relay_ok : str -> bool) (t : tag) (u : str) : Prop := exists rest, t = B "r" :: u :: rest /\ u <> [] /\ relay_ok u = true /\ (rest = [] \/ exists r, rest = B "read" :: r).
Definition writes (relay_ok : str -> bool) (t : tag) (u : str) : Prop := exists rest, t = B "r" :: u :: rest /\ u <> [] /\ relay_ok u = true /\ (rest = [] \/ exists r, rest = B "write" :: r).
(** Missing: several tags with the same relay. *)
Theorem C63_relay_list_partial relay_ok normalize tags : NoDup (map ri_url (parsed (parse_relay_10002 relay_ok normalize) tags)) ->
  let l := parse_items ri_url (parse_relay_10002 relay_ok normalize) tags [] in
  (forall v, In v (map ri_url (filter ri_inbox l)) <-> exists t u, In t tags /\ reads relay_ok t u /\ v = normalize u) /\
  (forall v, In v (write_relays l) <-> exists t u, In t tags /\ writes relay_ok t u /\ v = normalize u).
Proof.
  intro ND. cbv zeta. rewrite C63_items. assert (F : forall l, NoDup (map ri_url l) -> firsts ri_url l = l).
  { induction l as [|x l IH]; intro N; [reflexivity|]. cbn [firsts map] in *. inversion N as [|y m N1 N2]; subst. rewrite (IH N2). f_equal. clear - N1. induction l as [|y l IH]; [reflexivity|]. cbn [filter]. destruct (seqb_spec (ri_url x) (ri_url y)) as [E|E]; cbn [negb]; [destruct N1; left; congruence|]. f_equal. apply IH. intro H. apply N1. right. exact H. }
  rewrite (F _ ND). unfold write_relays. assert (G : forall (sel : relay_item -> bool) (S : tag -> str -> Prop),
    (forall t x, parse_relay_10002 relay_ok normalize t = Some x -> sel x = true -> exists u, S t u /\ ri_url x = normalize u) -> (forall t u, S t u -> exists x, parse_relay_10002 relay_ok normalize t = Some x /\ sel x = true /\ ri_url x = normalize u) ->
    forall v, In v (map ri_url (filter sel (parsed (parse_relay_10002 relay_ok normalize) tags))) <-> exists t u, In t tags /\ S t u /\ v = normalize u).
  { intros sel S A1 A2 v. split.
    - intro H. apply in_map_iff in H as (x & <- & H). apply filter_In in H as [H Q]. apply parsed_in in H as (t & H & P). destruct (A1 t x P Q) as (u & X & E). exists t, u. auto.
    - intros (t & u & H & X & ->). destruct (A2 t u X) as (x & P & Q & E). apply in_map_iff. exists x. split; [exact E|]. apply filter_In. split; [|exact Q]. apply parsed_in. eauto. }
  split; apply G.
  - intros t x P Q. destruct t as [|k [|u rest]]; try discriminate. cbn [parse_relay_10002] in P. destruct (seqb_spec u []) as [|N]; [discriminate|]. destruct (seqb_spec k (B "r")) as [->|]; [|discriminate]. cbn [negb andb] in P. destruct (relay_ok u) eqn:R; [|discriminate]. cbn [negb] in P. destruct rest as [|m rest].
    + injection P as <-. exists u. split; [exists []; auto|reflexivity].
    + destruct (seqb m (B "write")); [injection P as <-; discriminate|]. destruct (seqb_spec m (B "read")) as [->|]; injection P as <-; [|discriminate]. exists u. split; [|reflexivity]. exists (B "read" :: rest). eauto 6.
  - intros t u (rest & -> & N & R & M). cbn [parse_relay_10002]. rewrite seqb_refl, R. destruct (seqb_spec u []); [congruence|]. cbn [negb andb]. destruct M as [->|[r ->]]; eexists; (split; [reflexivity|]); auto.
  - intros t x P Q. destruct t as [|k [|u rest]]; try discriminate. cbn [parse_relay_10002] in P. destruct (seqb_spec u []) as [|N]; [discriminate|]. destruct (seqb_spec k (B "r")) as [->|]; [|discriminate]. cbn [negb andb] in P. destruct (relay_ok u) eqn:R; [|discriminate]. cbn [negb] in P. destruct rest as [|m rest].
    + injection P as <-. exists u. split; [exists []; auto|reflexivity].
    + destruct (seqb_spec m (B "write")) as [->|]; [|destruct (seqb m (B "read")); injection P as <-; discriminate]. injection P as <-. exists u. split; [|reflexivity]. exists (B "write" :: rest). eauto 6.
  - intros t u (rest & -> & N & R & M). cbn [parse_relay_10002]. rewrite seqb_refl, R. destruct (seqb_spec u []); [congruence|]. cbn [negb andb]. destruct M as [->|[r ->]]; eexists; (split; [reflexivity|]); auto.
Qed.
Print Assumptions C63_relay_list_partial.
Example C63_relay_list_example : let l := parsed (parse_relay_10002 (fun _ => true) (fun x => x)) [[B "r"; B "a"]; [B "r"; B "b"; B "read"]; [B "x"; B "b"]; [B "r"; B "c"; B "write"]] in NoDup (map ri_url l) /\ length l = 3.
Proof. split; [|reflexivity]. cbn. repeat (constructor; [cbn; intuition; discriminate|]). constructor. Qed.
(** One tag to read from a relay and one to write to it: only the first counts. *)
Theorem C63_two_markers_refuted : exists tags v, (exists t u, In t tags /\ writes (fun _ => true) t u /\ v = u) /\ ~ In v (write_relays (parse_items ri_url (parse_relay_10002 (fun _ => true) (fun x => x)) tags [])).
Proof.
  exists [[B "r"; B "wss://a"; B "read"]; [B "r"; B "wss://a"; B "write"]], (B "wss://a"). split; [|vm_compute; intuition].
  exists [B "r"; B "wss://a"; B "write"], (B "wss://a"). split; [right; left; reflexivity|]. split; [|reflexivity]. exists [B "write"]. split; [reflexivity|]. split; [discriminate|]. split; [reflexivity|]. right. exists []. reflexivity.
Qed.
Print Assumptions C63_two_markers_refuted.
(** Bookmarks and pins: parseEventRef never says it succeeded, so the lists are always empty. *)
Theorem C63_bookmarks_always_empty parse_ok normalize tags : parse_items event_ref_value (event_ref_item parse_ok normalize) tags [] = [].
Proof.
  assert (E : forall t, event_ref_item parse_ok normalize t = None).
  { intro t. unfold event_ref_item, parse_event_ref. destruct t as [|k [|v rest]]; try reflexivity. destruct (seqb k (B "e")); [destruct (valid_32byte_hex v); reflexivity|]. destruct (seqb k (B "a")); [|reflexivity]. destruct (split3 v) as [[[a b] c]|]; [|reflexivity]. destruct (valid_pubkey parse_ok b); [|reflexivity]. cbn [negb]. destruct (parse_int a); reflexivity. }
  induction tags as [|t tags IH]; [reflexivity|]. cbn [parse_items]. rewrite E. exact IH.
Qed.
Print Assumptions C63_bookmarks_always_empty.
Theorem C63_bookmarks_refuted : exists tags id, In [B "e"; id] tags /\ valid_32byte_hex id = true /\ ~ In id (map event_ref_value (parse_items event_ref_value (event_ref_item (fun _ => true) (fun x => x)) tags [])).
Proof.
  exists [[B "e"; hex_encode (repeat (byte_of 7) 32)]], (hex_encode (repeat (byte_of 7) 32)). split; [left; reflexivity|]. split; [vm_compute; reflexivity|]. rewrite C63_bookmarks_always_empty. intros [].
Qed.
Print Assumptions C63_bookmarks_refuted.
(** Sets: the last event of an identifier gives its items. *)
Theorem C63_sets {I} (value : I -> str) parse events d : assoc d (parse_sets value parse events) = option_map (fun e => firsts value (parsed parse (ev_tags e))) (find (fun e => seqb (get_d (ev_tags e)) d) (rev events)).
Proof.
  unfold parse_sets. induction events as [|e events IH] using rev_ind; [reflexivity|]. rewrite fold_left_app, rev_unit. cbn [fold_left find]. rewrite assoc_mset, (seqb_sym d). unfold items_of. rewrite C63_items. destruct (seqb _ d); [reflexivity|exact IH].
Qed.
Print Assumptions C63_sets.

(** ** C64. *)
Theorem C64_what_it_does arr items : exists a b, items = a ++ b /\ append_unique_items arr items = arr ++ a /\ NoDup a /\ (forall x, In x a -> ~ In x arr) /\ (b = [] \/ exists x b', b = x :: b' /\ In x (arr ++ a)).
Proof.
  revert arr. induction items as [|x items IH]; intro arr; cbn [append_unique_items].
  - exists [], []. split; [reflexivity|]. split; [rewrite app_nil_r; reflexivity|]. split; [constructor|]. split; [intros ? []|auto].
  - destruct (smem x arr) eqn:M.
    + exists [], (x :: items). split; [reflexivity|]. split; [rewrite app_nil_r; reflexivity|]. split; [constructor|]. split; [intros ? []|]. right. exists x, items. split; [reflexivity|]. rewrite app_nil_r. apply smem_In, M.
    + destruct (IH (arr ++ [x])) as (a & b & E1 & E2 & E3 & E4 & E5). exists (x :: a), b. split; [rewrite E1; reflexivity|]. split; [rewrite E2, <- app_assoc; reflexivity|]. assert (NX : ~ In x arr) by (rewrite <- smem_In; congruence). split.
      * constructor; [|exact E3]. intro H. apply (E4 x H). apply in_or_app. right. left. reflexivity.
      * split; [intros y [<-|H]; [exact NX|]; intro Q; apply (E4 y H), in_or_app; auto|]. rewrite <- app_assoc in E5. exact E5.
Qed.
Print Assumptions C64_what_it_does.
(** It is the union if at most the last item is already there. *)
Theorem C64_union_partial arr items last_item : NoDup items -> (forall x, In x items -> ~ In x arr) -> forall x, In x (append_unique_items arr (items ++ [last_item])) <-> In x arr \/ In x (items ++ [last_item]).
Proof.
  revert arr. induction items as [|y items IH]; intros arr ND F x; cbn [append_unique_items app].
  - destruct (smem last_item arr) eqn:M; [|rewrite in_app_iff; reflexivity]. apply smem_In in M. cbn [In]. split; [auto|]. intros [H|[<-|[]]]; auto.
  - inversion ND as [|z m N1 N2]; subst. destruct (smem y arr) eqn:M; [apply smem_In in M; destruct (F y (or_introl eq_refl) M)|]. rewrite IH; [|exact N2|].
    + rewrite in_app_iff. cbn [In]. intuition.
    + intros z H Q. apply in_app_or in Q as [Q|[<-|[]]]; [exact (F z (or_intror H) Q)|auto].
Qed.
Print Assumptions C64_union_partial.
Example C64_example : append_unique_items [B "a"] ([B "b"; B "c"] ++ [B "a"]) = [B "a"; B "b"; B "c"]. Proof. reflexivity. Qed.
(** The first item that is already there ends the work: the rest is lost. *)
Theorem C64_union_refuted : exists arr items x, In x items /\ ~ In x (append_unique_items arr items).
Proof. exists [B "a"], [B "a"; B "b"], (B "b"). split; [right; left; reflexivity|]. vm_compute. intros [H|[]]. discriminate. Qed.
Print Assumptions C64_union_refuted.
