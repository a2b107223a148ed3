(** Groups: C72 and C78. *)
From Verif Require Import Base EventModel TagsModel TagsProofs Nip19Model GroupModel.
Import ListNotations.
Local Open Scope Z_scope.

(** * C72: what a merged event does *)
(** Spec: the first value of a key, if any; whether a tag's name begins with a word *)
Definition value_of (k : str) (ts : list tag) : option str :=
  match find (fun t => match t with x :: _ :: _ => seqb x k | _ => false end) ts with Some (_ :: v :: _) => Some v | _ => None end.
Definition or_else (o : option str) (d : str) : str := match o with Some v => v | None => d end.
Definition begins (w : str) (ts : list tag) : bool := existsb (fun t => match t with x :: _ => has_prefix x w | [] => false end) ts.
Lemma second_value k ts d : second (get_first ts [k; []]) d = Ok (or_else (value_of k ts) d).
Proof.
  rewrite get_first_find by discriminate. unfold value_of, second. cbn [obind]. induction ts as [|t ts IH]; [reflexivity|]. cbn [find]. assert (E : sw [k; []] t = match t with x :: _ :: _ => seqb x k | _ => false end).
  { unfold sw, starts_with. destruct t as [|x [|v r]]; try reflexivity. cbn. rewrite (seqb_sym x k). destruct (seqb k x); [|reflexivity]. destruct v; reflexivity. }
  rewrite E. destruct t as [|x [|v r]]; try exact IH. destruct (seqb x k); [reflexivity|exact IH].
Qed.
Lemma found_begins w ts b : found (get_first ts [w]) b = Ok (begins w ts || b).
Proof.
  rewrite get_first_find by discriminate. unfold begins, found. cbn [obind]. induction ts as [|t ts IH]; [reflexivity|]. cbn [find existsb]. assert (E : sw [w] t = match t with x :: _ => has_prefix x w | [] => false end).
  { unfold sw, starts_with. destruct t as [|x r]; [reflexivity|]. cbn. destruct (has_prefix x w); reflexivity. }
  rewrite E. destruct t as [|x r]; [exact IH|]. destruct (has_prefix x w); [reflexivity|exact IH].
Qed.
Definition with_meta (g : group) (at_ : Z) (name picture about : str) (private closed : bool) : group :=
  mkGroup (gr_relay g) (gr_id g) name picture about (gr_members g) private closed (gr_roles g) at_ (gr_admins_at g) (gr_members_at g) (gr_roles_at g).
(** Exactly what a metadata event does: the name is set, the rest only ever added to. *)
Theorem C72_merge_metadata g e : merge_metadata g e =
  if (ev_kind e =? 39000) && (gr_meta_at g <=? ev_created_at e)
  then Ok (with_meta g (ev_created_at e) (or_else (value_of (B "name") (ev_tags e)) (gr_id g)) (or_else (value_of (B "picture") (ev_tags e)) (gr_picture g)) (or_else (value_of (B "about") (ev_tags e)) (gr_about g))
             (begins (B "private") (ev_tags e) || gr_private g) (begins (B "closed") (ev_tags e) || gr_closed g))
  else Err.
Proof.
  unfold merge_metadata. destruct (ev_kind e =? 39000); [cbn [negb andb]|reflexivity]. rewrite Z.leb_antisym. destruct (ev_created_at e <? gr_meta_at g); [reflexivity|]. cbn [negb]. rewrite !second_value, !found_begins. reflexivity.
Qed.
(** Round trip of the metadata into a new group of the same address. *)
Definition fresh (relay id : str) (roles : list role) : group := mkGroup relay id id [] [] [] false false roles 0 0 0 0.
Theorem C72_metadata g : gr_name g <> [] -> 0 <= gr_meta_at g -> exists g', merge_metadata (fresh (gr_relay g) (gr_id g) []) (to_metadata g) = Ok g' /\
  gr_name g' = gr_name g /\ gr_picture g' = gr_picture g /\ gr_about g' = gr_about g /\ gr_private g' = gr_private g /\ gr_closed g' = gr_closed g /\ gr_meta_at g' = gr_meta_at g.
Proof.
  intros N T. eexists. rewrite C72_merge_metadata. change (ev_kind (to_metadata g)) with 39000. change (ev_created_at (to_metadata g)) with (gr_meta_at g). change (gr_meta_at (fresh _ _ _)) with 0. destruct (Z.leb_spec 0 (gr_meta_at g)); [|lia]. cbn [Z.eqb Pos.eqb andb]. split; [reflexivity|].
  unfold with_meta, to_metadata, plain_event, metadata_tags. cbn [gr_name gr_picture gr_about gr_private gr_closed gr_meta_at ev_tags fresh gr_id].
  destruct (gr_name g) as [|c n]; [congruence|]. destruct (gr_picture g), (gr_about g), (gr_private g), (gr_closed g); repeat split.
Qed.
Example C72_metadata_applies : exists g', merge_metadata (fresh [] (B "gid") []) (to_metadata (mkGroup [] (B "gid") (B "pals") [] (B "us") [] true false [] 7 0 0 0)) = Ok g' /\ g' = mkGroup [] (B "gid") (B "pals") [] (B "us") [] true false [] 7 0 0 0.
Proof. eexists. split; vm_compute; reflexivity. Qed.
(** A group without a name comes back with its id as name. *)
Theorem C72_no_name_refuted : exists g g', merge_metadata (fresh [] (gr_id g) []) (to_metadata g) = Ok g' /\ gr_name g = [] /\ gr_name g' = B "gid".
Proof. exists (mkGroup [] (B "gid") [] [] [] [] false false [] 7 0 0 0). eexists. split; [vm_compute; reflexivity|]. split; reflexivity. Qed.
(** A group that is opened, or drops its description, never shows it: merged into the old state the event changes nothing of that. *)
Theorem C72_reopened_refuted : exists old new g', gr_meta_at old < gr_meta_at new /\ gr_private new = false /\ gr_closed new = false /\ gr_about new = [] /\ merge_metadata old (to_metadata new) = Ok g' /\ gr_private g' = true /\ gr_closed g' = true /\ gr_about g' = B "secret club".
Proof. exists (mkGroup [] (B "g") (B "n") [] (B "secret club") [] true true [] 1 0 0 0), (mkGroup [] (B "g") (B "n") [] [] [] false false [] 2 0 0 0). eexists. split; [reflexivity|]. split; [reflexivity|]. split; [reflexivity|]. split; [reflexivity|]. split; [vm_compute; reflexivity|]. repeat split. Qed.
(** Any tag whose name only begins with the word counts. *)
Theorem C72_prefix_refuted : exists ts g', ~ In [B "private"] ts /\ merge_metadata (fresh [] [] []) (plain_event 39000 1 ts) = Ok g' /\ gr_private g' = true.
Proof. exists [[B "private-relays"; B "no"]]. eexists. split; [intros [H|[]]; discriminate|]. split; vm_compute; reflexivity. Qed.

(** ** Members and admins *)
(** the names of the roles an event gives to someone, and whether it names them at all, in a tag of at least [n] items *)
Definition granted (x : str) (ts : list tag) : list str := flat_map (fun t => match t with k :: pk :: names => if seqb k (B "p") && seqb pk x then names else [] | _ => [] end) ts.
Definition named (n : nat) (x : str) (ts : list tag) : bool := existsb (fun t => match t with k :: pk :: _ => seqb k (B "p") && seqb pk x && Nat.leb n (length t) | _ => false end) ts.
Lemma roles_set k r m x : roles_of x (set_roles k r m) = if seqb x k then r else roles_of x m.
Proof.
  unfold roles_of. induction m as [|[y s] m IH]; cbn [set_roles find fst snd]. { rewrite (seqb_sym k x). destruct (seqb x k); reflexivity. } destruct (seqb_spec y k) as [->|N]; cbn [find fst].
  - rewrite (seqb_sym k x). destruct (seqb x k); reflexivity.
  - destruct (seqb_spec y x) as [->|M]; [destruct (seqb_spec x k); [congruence|reflexivity]|exact IH].
Qed.
Lemma member_set k r m x : is_member x (set_roles k r m) = seqb x k || is_member x m.
Proof.
  unfold is_member. induction m as [|[y s] m IH]; cbn [set_roles existsb fst]. { rewrite (seqb_sym k x). reflexivity. } destruct (seqb_spec y k) as [->|N]; cbn [existsb fst].
  - rewrite (seqb_sym k x). destruct (seqb x k); reflexivity.
  - rewrite IH. destruct (seqb y x), (seqb x k); reflexivity.
Qed.
Lemma roles_fold roles pk names m x : roles_of x (fold_left (fun m n => set_roles pk (roles_of pk m ++ [role_by_name roles n]) m) names m) = if seqb x pk then roles_of pk m ++ map (role_by_name roles) names else roles_of x m.
Proof.
  revert m. induction names as [|n names IH]; intro m; cbn [fold_left map]. { rewrite app_nil_r. destruct (seqb_spec x pk) as [->|]; reflexivity. } rewrite IH. rewrite !roles_set, seqb_refl. destruct (seqb x pk); [rewrite <- app_assoc; reflexivity|reflexivity].
Qed.
Lemma member_fold roles pk names m x : is_member x (fold_left (fun m n => set_roles pk (roles_of pk m ++ [role_by_name roles n]) m) names m) = match names with [] => false | _ => seqb x pk end || is_member x m.
Proof.
  revert m. induction names as [|n names IH]; intro m; cbn [fold_left]; [reflexivity|]. rewrite IH, member_set. destruct names, (seqb x pk); reflexivity.
Qed.
Lemma admins_fold roles ts m x : valid_32byte_hex x = true -> roles_of x (fold_left (admin_step roles) ts m) = roles_of x m ++ map (role_by_name roles) (granted x ts) /\ is_member x (fold_left (admin_step roles) ts m) = named 3 x ts || is_member x m.
Proof.
  intro V. revert m. induction ts as [|t ts IH]; intro m; cbn [fold_left]. { cbn. rewrite app_nil_r. split; reflexivity. } destruct (IH (admin_step roles m t)) as [-> ->]. unfold granted, named. cbn [flat_map existsb]. fold (granted x ts). fold (named 3 x ts).
  assert (S : roles_of x (admin_step roles m t) = roles_of x m ++ map (role_by_name roles) (match t with k :: pk :: names => if seqb k (B "p") && seqb pk x then names else [] | _ => [] end) /\ is_member x (admin_step roles m t) = match t with k :: pk :: _ => seqb k (B "p") && seqb pk x && Nat.leb 3 (length t) | _ => false end || is_member x m).
  { destruct t as [|k [|pk [|r1 rest]]]; cbn [admin_step]; try (cbn [map]; rewrite app_nil_r; split; reflexivity).
    - cbn [length Nat.leb]. rewrite andb_false_r. destruct (seqb k (B "p") && seqb pk x); cbn [map]; rewrite app_nil_r; split; reflexivity.
    - destruct (seqb k (B "p")); cbn [andb]; [|cbn [map]; rewrite app_nil_r; split; reflexivity]. cbn [length Nat.leb]. rewrite andb_true_r. destruct (seqb_spec pk x) as [->|N].
      + rewrite V. rewrite roles_fold, member_fold, seqb_refl. split; reflexivity.
      + destruct (valid_32byte_hex pk); cbn [map]; rewrite app_nil_r; [|split; reflexivity]. rewrite roles_fold, member_fold. destruct (seqb_spec x pk); [congruence|]. split; reflexivity. }
  destruct S as [-> ->]. rewrite <- app_assoc, <- map_app. split; [reflexivity|]. rewrite orb_assoc, (orb_comm (named 3 x ts)), <- orb_assoc. reflexivity.
Qed.
Lemma members_fold ts m x : valid_32byte_hex x = true -> roles_of x (fold_left member_step ts m) = roles_of x m /\ is_member x (fold_left member_step ts m) = named 2 x ts || is_member x m.
Proof.
  intro V. revert m. induction ts as [|t ts IH]; intro m; cbn [fold_left]; [split; reflexivity|]. destruct (IH (member_step m t)) as [-> ->]. unfold named. cbn [existsb]. fold (named 2 x ts).
  assert (S : roles_of x (member_step m t) = roles_of x m /\ is_member x (member_step m t) = match t with k :: pk :: _ => seqb k (B "p") && seqb pk x && Nat.leb 2 (length t) | _ => false end || is_member x m).
  { destruct t as [|k [|pk rest]]; cbn [member_step]; try (split; reflexivity). cbn [length Nat.leb]. rewrite andb_true_r. destruct (seqb k (B "p")); cbn [andb]; [|split; reflexivity]. destruct (seqb_spec pk x) as [->|N].
    - rewrite V. destruct (is_member x m) eqn:M; [split; [reflexivity|exact M]|]. rewrite roles_set, member_set, seqb_refl. split; [|reflexivity]. unfold roles_of. unfold is_member in M. clear - M. induction m as [|y m IH]; [reflexivity|]. cbn [existsb] in M. apply orb_false_elim in M. destruct M as [M1 M2]. cbn [find]. rewrite M1. exact (IH M2).
    - destruct (valid_32byte_hex pk); [|split; reflexivity]. destruct (is_member pk m); [split; reflexivity|]. rewrite roles_set, member_set. destruct (seqb_spec x pk); [congruence|]. split; reflexivity. }
  destruct S as [-> ->]. split; [reflexivity|]. rewrite orb_assoc, (orb_comm (named 2 x ts)), <- orb_assoc. reflexivity.
Qed.
(** Exactly what the two events do to each member: roles are added, nothing is ever taken away. *)
Theorem C72_merge_admins g e g' : merge_admins g e = Ok g' -> ev_kind e = 39001 /\ gr_admins_at g <= ev_created_at e /\ gr_admins_at g' = ev_created_at e /\ forall x, valid_32byte_hex x = true ->
  roles_of x (gr_members g') = roles_of x (gr_members g) ++ map (role_by_name (gr_roles g)) (granted x (ev_tags e)) /\ is_member x (gr_members g') = named 3 x (ev_tags e) || is_member x (gr_members g).
Proof.
  unfold merge_admins. destruct (Z.eqb_spec (ev_kind e) 39001) as [K|]; [|discriminate]. cbn [negb]. destruct (Z.ltb_spec (ev_created_at e) (gr_admins_at g)) as [|T]; [discriminate|]. intro H. match type of H with Ok ?x = Ok _ => assert (g' = x) as -> by congruence end. split; [exact K|]. split; [exact T|]. split; [reflexivity|]. intros x V. apply admins_fold. exact V.
Qed.
Theorem C72_merge_members g e g' : merge_members g e = Ok g' -> ev_kind e = 39002 /\ gr_members_at g <= ev_created_at e /\ gr_members_at g' = ev_created_at e /\ forall x, valid_32byte_hex x = true ->
  roles_of x (gr_members g') = roles_of x (gr_members g) /\ is_member x (gr_members g') = named 2 x (ev_tags e) || is_member x (gr_members g).
Proof.
  unfold merge_members. destruct (Z.eqb_spec (ev_kind e) 39002) as [K|]; [|discriminate]. cbn [negb]. destruct (Z.ltb_spec (ev_created_at e) (gr_members_at g)) as [|T]; [discriminate|]. intro H. match type of H with Ok ?x = Ok _ => assert (g' = x) as -> by congruence end. split; [exact K|]. split; [exact T|]. split; [reflexivity|]. intros x V. apply members_fold. exact V.
Qed.
(** Round trip of members and their roles, whatever the order of the maps. [order]: the order in which a group's members are iterated. *)
Definition reordered (g : group) (order : list (str * list role)) : group := mkGroup (gr_relay g) (gr_id g) (gr_name g) (gr_picture g) (gr_about g) order (gr_private g) (gr_closed g) (gr_roles g) (gr_meta_at g) (gr_admins_at g) (gr_members_at g) (gr_roles_at g).
Lemma granted_app x a b : granted x (a ++ b) = granted x a ++ granted x b.
Proof. apply flat_map_app. Qed.
Lemma named_app n x a b : named n x (a ++ b) = named n x a || named n x b.
Proof. apply existsb_app. Qed.
Lemma granted_admins l x : NoDup (map fst l) -> granted x (flat_map admin_tag l) = map ro_name (roles_of x l).
Proof.
  unfold roles_of. induction l as [|[y rs] l IH]; intro N; [reflexivity|]. inversion N as [|? ? NI N']; subst. cbn [flat_map find fst snd]. rewrite granted_app, IH by exact N'. unfold admin_tag, granted. cbn [snd fst].
  destruct (seqb_spec y x) as [->|D].
  - assert (F : find (fun z => seqb (fst z) x) l = None). { apply find_none_iff. apply Forall_forall. intros [z zr] I. cbn. destruct (seqb_spec z x) as [->|]; [|reflexivity]. destruct NI. change x with (fst (x, zr)). apply in_map. exact I. } rewrite F. destruct rs as [|r rs]; cbn [flat_map map app]; [reflexivity|]. change (seqb (B "p") (B "p")) with true. rewrite seqb_refl. cbn [andb]. rewrite !app_nil_r. reflexivity.
  - destruct rs as [|r rs]; cbn [flat_map app]; [reflexivity|]. change (seqb (B "p") (B "p")) with true. destruct (seqb_spec y x); [congruence|]. reflexivity.
Qed.
Lemma named_admins l x : named 3 x (flat_map admin_tag l) = existsb (fun z => seqb (fst z) x && match snd z with [] => false | _ => true end) l.
Proof.
  induction l as [|[y rs] l IH]; [reflexivity|]. cbn [flat_map existsb fst snd]. rewrite named_app, IH. f_equal. unfold admin_tag, named. cbn [snd fst]. destruct rs as [|r rs]; [rewrite andb_false_r; reflexivity|]. cbn [existsb map length Nat.leb]. change (seqb (B "p") (B "p")) with true. cbn [andb]. rewrite orb_false_r. reflexivity.
Qed.
Lemma named_members l x : named 2 x (map (fun z : str * list role => [B "p"; fst z]) l) = is_member x l.
Proof. unfold named, is_member. induction l as [|[y rs] l IH]; [reflexivity|]. cbn [map existsb fst length Nat.leb]. change (seqb (B "p") (B "p")) with true. cbn [andb]. rewrite andb_true_r. apply (f_equal (orb (seqb y x))). exact IH. Qed.
Lemma members_perm (m m' : list (str * list role)) x : NoDup (map fst m) -> Permutation m m' -> roles_of x m = roles_of x m' /\ is_member x m = is_member x m'.
Proof.
  intros N P. split.
  - assert (N' : NoDup (map fst m')) by (eapply Permutation_NoDup; [apply Permutation_map; exact P|exact N]).
    assert (U : forall l : list (str * list role), NoDup (map fst l) -> forall r, In (x, r) l -> roles_of x l = r).
    { clear. induction l as [|[y s] l IH]; intros N r I; [destruct I|]. inversion N as [|? ? NI N']; subst. unfold roles_of. cbn [find fst]. destruct (seqb_spec y x) as [->|D]. { destruct I as [I|I]; [cbn; congruence|]. destruct NI. change x with (fst (x, r)). apply in_map. exact I. } destruct I as [I|I]; [congruence|]. exact (IH N' r I). }
    assert (Z : forall l : list (str * list role), (forall r, ~ In (x, r) l) -> roles_of x l = []).
    { clear. intros l H. unfold roles_of. destruct (find _ l) as [[y s]|] eqn:F; [|reflexivity]. apply find_some in F. destruct F as [I E]. cbn in E. apply seqb_eq in E. subst. destruct (H s I). }
    destruct (in_dec str_eq_dec x (map fst m)) as [I|NI].
    + apply in_map_iff in I. destruct I as ([y r] & E & I). cbn in E. subst. rewrite (U m N r I), (U m' N' r (Permutation_in _ P I)). reflexivity.
    + rewrite !Z; [reflexivity| |]; intros r I; apply NI; change x with (fst (x, r)); apply in_map; [eapply Permutation_in; [apply Permutation_sym; exact P|exact I]|exact I].
  - unfold is_member. destruct (existsb (fun z => seqb (fst z) x) m) eqn:E; symmetry.
    + apply existsb_exists in E. destruct E as (y & I & E). apply existsb_exists. exists y. split; [eapply Permutation_in; eassumption|exact E].
    + apply not_true_is_false. intro T. apply existsb_exists in T. destruct T as (y & I & T). apply not_true_iff_false in E. apply E. apply existsb_exists. exists y. split; [eapply Permutation_in; [apply Permutation_sym; exact P|exact I]|exact T].
Qed.
Lemma d_tag_nothing x id ts n : granted x ([B "d"; id] :: ts) = granted x ts /\ named n x ([B "d"; id] :: ts) = named n x ts.
Proof. split; reflexivity. Qed.
Theorem C72_members g order1 order2 roles : NoDup (map fst (gr_members g)) -> Permutation (gr_members g) order1 -> Permutation (gr_members g) order2 -> 0 <= gr_admins_at g -> 0 <= gr_members_at g ->
  exists g1 g2, merge_admins (fresh (gr_relay g) (gr_id g) roles) (to_admins (reordered g order1)) = Ok g1 /\ merge_members g1 (to_members (reordered g order2)) = Ok g2 /\
  gr_admins_at g2 = gr_admins_at g /\ gr_members_at g2 = gr_members_at g /\
  forall x, valid_32byte_hex x = true -> is_member x (gr_members g2) = is_member x (gr_members g) /\ roles_of x (gr_members g2) = map (fun r => role_by_name roles (ro_name r)) (roles_of x (gr_members g)).
Proof.
  intros N P1 P2 T1 T2. destruct (merge_admins (fresh (gr_relay g) (gr_id g) roles) (to_admins (reordered g order1))) as [g1| |] eqn:M1.
  2,3: exfalso; unfold merge_admins in M1; change (ev_kind (to_admins _)) with 39001 in M1; change (ev_created_at (to_admins (reordered g order1))) with (gr_admins_at g) in M1; change (gr_admins_at (fresh _ _ _)) with 0 in M1; cbn [Z.eqb Pos.eqb negb] in M1; destruct (Z.ltb_spec (gr_admins_at g) 0); [lia|discriminate].
  assert (A : gr_members_at g1 = 0). { unfold merge_admins in M1. destruct (negb _); [discriminate|]. destruct (_ <? _); [discriminate|]. match type of M1 with Ok ?x = Ok _ => assert (g1 = x) as -> by congruence end. reflexivity. }
  exists g1. destruct (merge_members g1 (to_members (reordered g order2))) as [g2| |] eqn:M2.
  2,3: exfalso; unfold merge_members in M2; change (ev_kind (to_members _)) with 39002 in M2; change (ev_created_at (to_members (reordered g order2))) with (gr_members_at g) in M2; rewrite A in M2; cbn [Z.eqb Pos.eqb negb] in M2; destruct (Z.ltb_spec (gr_members_at g) 0); [lia|discriminate].
  assert (A2 : gr_admins_at g2 = gr_admins_at g1). { unfold merge_members in M2. destruct (negb _); [discriminate|]. destruct (_ <? _); [discriminate|]. match type of M2 with Ok ?x = Ok _ => assert (g2 = x) as -> by congruence end. reflexivity. }
  exists g2. split; [reflexivity|]. split; [reflexivity|]. apply C72_merge_admins in M1. destruct M1 as (_ & _ & C1 & M1). apply C72_merge_members in M2. destruct M2 as (_ & _ & C2 & M2). split; [rewrite A2, C1; reflexivity|]. split; [exact C2|]. intros x V. destruct (M1 x V) as [R1 I1]. destruct (M2 x V) as [R2 I2]. rewrite R2, R1, I2, I1. clear R1 R2 I1 I2 M1 M2.
  unfold to_admins, to_members, plain_event. cbn [ev_tags gr_members fresh reordered gr_roles]. change (granted x ([B "d"; ?i] :: ?t)) with (granted x t). change (named ?n x ([B "d"; ?i] :: ?t)) with (named n x t). rewrite named_members.
  rewrite granted_admins by (eapply Permutation_NoDup; [apply Permutation_map; exact P1|exact N]). destruct (members_perm _ _ x N P1) as [<- _]. destruct (members_perm _ _ x N P2) as [_ <-]. rewrite map_map. split; [|reflexivity].
  rewrite named_admins. cbn [is_member existsb]. rewrite orb_false_r. destruct (existsb _ order1) eqn:E; [|rewrite orb_false_r; reflexivity]. rewrite orb_true_r. symmetry. apply existsb_exists in E. destruct E as (y & I & E). apply andb_prop in E. apply existsb_exists. exists y. split; [eapply Permutation_in; [apply Permutation_sym; exact P1|exact I]|apply E].
Qed.
(** With the roles known, the descriptions come back too; without, they are lost: there is no way to merge the roles event. *)
Corollary C72_roles roles (rs : list role) : (forall r, In r rs -> role_by_name roles (ro_name r) = r) -> map (fun r => role_by_name roles (ro_name r)) rs = rs.
Proof. induction rs as [|r rs IH]; intro H; [reflexivity|]. cbn. rewrite H by (left; reflexivity). rewrite IH; [reflexivity|]. intros q I. apply H. right. exact I. Qed.
Definition pk1 : str := B "7e7e9c42a91bfef19fa929e5fda1b72e0ebc1a4c1141673e2794234d86addf4e".
Definition pk2 : str := B "3bf0c63fcb93463407af97a5e5ee64fa883d107ef9e558472c4eb9aaaefa459d".
Definition some_group : group := mkGroup (B "wss://r") (B "gid") (B "pals") [] [] [(pk1, [mkRole (B "admin") (B "all"); mkRole (B "mod") []]); (pk2, [])] false true [mkRole (B "admin") (B "all")] 7 8 9 10.
Example C72_members_applies : exists g1 g2, merge_admins (fresh (B "wss://r") (B "gid") (gr_roles some_group)) (to_admins some_group) = Ok g1 /\ merge_members g1 (to_members (reordered some_group (rev (gr_members some_group)))) = Ok g2 /\ gr_members g2 = gr_members some_group.
Proof. eexists. eexists. split; [vm_compute; reflexivity|]. split; vm_compute; reflexivity. Qed.
Theorem C72_roles_lost_refuted : exists g1, merge_admins (fresh (B "wss://r") (B "gid") []) (to_admins some_group) = Ok g1 /\ roles_of pk1 (gr_members g1) = [mkRole (B "admin") []; mkRole (B "mod") []].
Proof. eexists. split; vm_compute; reflexivity. Qed.
(** The roles event carries the time of the members, not of the roles. *)
Theorem C72_roles_time_refuted : ev_created_at (to_roles some_group) = gr_members_at some_group /\ gr_roles_at some_group <> gr_members_at some_group.
Proof. split; [reflexivity|discriminate]. Qed.
(** Merging the same event again, or a newer one with the same admins, doubles the roles; someone who is removed stays. *)
Theorem C72_twice_refuted : exists g1 g2, merge_admins (fresh [] (B "gid") []) (to_admins some_group) = Ok g1 /\ merge_admins g1 (to_admins some_group) = Ok g2 /\ length (roles_of pk1 (gr_members g1)) = 2%nat /\ length (roles_of pk1 (gr_members g2)) = 4%nat.
Proof. eexists. eexists. split; [vm_compute; reflexivity|]. split; [vm_compute; reflexivity|]. split; reflexivity. Qed.
Theorem C72_removed_refuted g e g' x : merge_members g e = Ok g' -> valid_32byte_hex x = true -> is_member x (gr_members g) = true -> is_member x (gr_members g') = true.
Proof. intros H V M. apply C72_merge_members in H. destruct H as (_ & _ & _ & H). destruct (H x V) as [_ ->]. rewrite M. apply orb_true_r. Qed.

(** ** Sequences of merges *)
(** the merge for the kind of the event; what is refused changes nothing *)
Definition merge (g : group) (e : event) : outcome group := if ev_kind e =? 39000 then merge_metadata g e else if ev_kind e =? 39001 then merge_admins g e else merge_members g e.
Definition merged (g : group) (e : event) : group := match merge g e with Ok g' => g' | _ => g end.
Definition last_at (k : Z) (g : group) : Z := if k =? 39000 then gr_meta_at g else if k =? 39001 then gr_admins_at g else gr_members_at g.
Definition ours (e : event) : Prop := In (ev_kind e) [39000; 39001; 39002].
Lemma merge_spec g e : (exists g', merge g e = Ok g' /\ ours e /\ last_at (ev_kind e) g <= ev_created_at e /\ (forall k, In k [39000; 39001; 39002] -> last_at k g' = if k =? ev_kind e then ev_created_at e else last_at k g)) \/ (merge g e = Err /\ (ours e -> ev_created_at e < last_at (ev_kind e) g)).
Proof.
  unfold merge, ours. destruct (Z.eqb_spec (ev_kind e) 39000) as [E|N1].
  - rewrite C72_merge_metadata. rewrite E. cbn [Z.eqb Pos.eqb andb]. unfold last_at at 1 3. cbn [Z.eqb Pos.eqb]. destruct (Z.leb_spec (gr_meta_at g) (ev_created_at e)) as [L|L]; [left|right; split; [reflexivity|intros _; exact L]]. eexists. split; [reflexivity|]. split; [left; reflexivity|]. split; [exact L|]. intros k [<-|[<-|[<-|[]]]]; reflexivity.
  - destruct (Z.eqb_spec (ev_kind e) 39001) as [E|N2].
    + unfold merge_admins. rewrite E. cbn [Z.eqb Pos.eqb negb]. unfold last_at at 1 3. cbn [Z.eqb Pos.eqb]. destruct (Z.ltb_spec (ev_created_at e) (gr_admins_at g)) as [L|L]; [right; split; [reflexivity|intros _; exact L]|left]. eexists. split; [reflexivity|]. split; [right; left; reflexivity|]. split; [exact L|]. intros k [<-|[<-|[<-|[]]]]; reflexivity.
    + unfold merge_members. destruct (Z.eqb_spec (ev_kind e) 39002) as [E|N3]; cbn [negb].
      * rewrite E. unfold last_at at 1 3. cbn [Z.eqb Pos.eqb]. destruct (Z.ltb_spec (ev_created_at e) (gr_members_at g)) as [L|L]; [right; split; [reflexivity|intros _; exact L]|left]. eexists. split; [reflexivity|]. split; [right; right; left; reflexivity|]. split; [exact L|]. intros k [<-|[<-|[<-|[]]]]; reflexivity.
      * right. split; [reflexivity|]. intros [H|[H|[H|[]]]]; congruence.
Qed.
Lemma merged_last es g k : In k [39000; 39001; 39002] -> last_at k g <= last_at k (fold_left merged es g).
Proof.
  intro K. revert g. induction es as [|e es IH]; intro g; cbn [fold_left]; [lia|]. specialize (IH (merged g e)). unfold merged in *. destruct (merge_spec g e) as [(g' & E & _ & L & F)|[E _]]; rewrite E in *; [|exact IH]. rewrite (F k K) in IH. destruct (Z.eqb_spec k (ev_kind e)) as [->|]; lia.
Qed.
(** Once an event is merged, whatever comes later, an older one of its kind is refused. *)
Theorem C72_older_refused g e1 mid e2 g1 : merge g e1 = Ok g1 -> ev_kind e2 = ev_kind e1 -> ev_created_at e2 < ev_created_at e1 -> merge (fold_left merged mid g1) e2 = Err.
Proof.
  intros M K T. destruct (merge_spec g e1) as [(g' & E & O & L & F)|[E _]]; [|congruence]. assert (g' = g1) as -> by congruence. pose proof (merged_last mid g1 (ev_kind e1) O) as X. rewrite (F _ O), Z.eqb_refl in X. destruct (merge_spec (fold_left merged mid g1) e2) as [(g'' & _ & _ & L' & _)|[E' _]]; [|exact E']. rewrite K in L'. lia.
Qed.
(** In any order of arrival the name is that of the newest metadata event. *)
Lemma merged_other g e : ev_kind e <> 39000 -> gr_meta_at (merged g e) = gr_meta_at g /\ gr_name (merged g e) = gr_name g /\ gr_id (merged g e) = gr_id g.
Proof.
  intro N. unfold merged, merge. destruct (Z.eqb_spec (ev_kind e) 39000); [congruence|]. destruct (ev_kind e =? 39001).
  - unfold merge_admins. destruct (negb _); [auto|]. destruct (_ <? _); auto.
  - unfold merge_members. destruct (negb _); [auto|]. destruct (_ <? _); auto.
Qed.
Lemma merged_meta g e : ev_kind e = 39000 -> gr_id (merged g e) = gr_id g /\ (gr_meta_at g <= ev_created_at e -> gr_meta_at (merged g e) = ev_created_at e /\ gr_name (merged g e) = or_else (value_of (B "name") (ev_tags e)) (gr_id g)) /\ (ev_created_at e < gr_meta_at g -> merged g e = g).
Proof.
  intro K. unfold merged, merge. rewrite K. cbn [Z.eqb Pos.eqb]. rewrite C72_merge_metadata, K. cbn [Z.eqb Pos.eqb andb]. destruct (Z.leb_spec (gr_meta_at g) (ev_created_at e)) as [L|L]; (split; [reflexivity|]); split; intro H; try lia; [split; reflexivity|reflexivity].
Qed.
Theorem C72_newest_name g a e b : ev_kind e = 39000 -> gr_meta_at g <= ev_created_at e -> Forall (fun x => ev_kind x = 39000 -> ev_created_at x < ev_created_at e) (a ++ b) ->
  gr_name (fold_left merged (a ++ e :: b) g) = or_else (value_of (B "name") (ev_tags e)) (gr_id g).
Proof.
  intros K T F. apply Forall_app in F. destruct F as [FA FB]. rewrite fold_left_app. cbn [fold_left].
  assert (A : gr_id (fold_left merged a g) = gr_id g /\ gr_meta_at (fold_left merged a g) <= ev_created_at e).
  { clear FB. revert g T. induction FA as [|x a H FA IH]; intros g T; cbn [fold_left]; [auto|]. destruct (Z.eq_dec (ev_kind x) 39000) as [X|X].
    - specialize (H X). destruct (merged_meta g x X) as (I & Y & Z). rewrite <- I. apply IH. destruct (Z.le_gt_cases (gr_meta_at g) (ev_created_at x)) as [L|L]; [destruct (Y L) as [-> _]; lia|]. rewrite Z by lia. exact T.
    - destruct (merged_other g x X) as (Y & _ & I). rewrite <- I. apply IH. lia. }
  destruct A as [I A]. rewrite <- I. destruct (merged_meta (fold_left merged a g) e K) as (I2 & Y & _). destruct (Y A) as [Y1 Y2]. rewrite <- Y2. generalize dependent (merged (fold_left merged a g) e). intros g1 _ _ Y1 _. clear - FB Y1.
  revert g1 Y1. induction FB as [|x b H FB IH]; intros g1 Y1; cbn [fold_left]; [reflexivity|]. destruct (Z.eq_dec (ev_kind x) 39000) as [X|X].
  - specialize (H X). destruct (merged_meta g1 x X) as (_ & _ & Z). rewrite Z by lia. apply IH. exact Y1.
  - destruct (merged_other g1 x X) as (Y & N & _). rewrite <- N. apply IH. congruence.
Qed.
Example C72_newest_applies : gr_name (fold_left merged [plain_event 39000 5 [[B "name"; B "new"]]; to_members some_group; plain_event 39000 3 [[B "name"; B "old"]]] (fresh [] (B "g") [])) = B "new".
Proof. vm_compute. reflexivity. Qed.
(** The rest of the metadata depends on the order. *)
Theorem C72_order_refuted : exists a b g, gr_about (fold_left merged [a; b] g) <> gr_about (fold_left merged [b; a] g).
Proof. exists (plain_event 39000 3 [[B "about"; B "old"]]), (plain_event 39000 5 []), (fresh [] [] []). vm_compute. discriminate. Qed.

(** ** Addresses *)
Lemma cut_quote h id : existsb (fun c => ceqb c quote1) h = false -> cut quote1 (h ++ quote1 :: id) = Some (h, id).
Proof. induction h as [|c h IH]; [reflexivity|]. cbn [existsb cut app]. intro H. apply orb_false_elim in H. destruct H as [H1 H2]. rewrite H1, IH by exact H2. reflexivity. Qed.
Theorem C72_address normalize url_host relay id h : url_host relay = Some h -> normalize h = relay -> existsb (fun c => ceqb c quote1) (h ++ id) = false ->
  exists s, address_string url_host relay id = Ok s /\ parse_address normalize s = Some (relay, id).
Proof. intros U N Q. rewrite existsb_app in Q. apply orb_false_elim in Q. destruct Q as [Q1 Q2]. eexists. unfold address_string. rewrite U. split; [reflexivity|]. unfold parse_address. rewrite cut_quote by exact Q1. rewrite Q2, N. reflexivity. Qed.
(** The text keeps only the host: two relays on one host give the same address. An address that is no URL crashes. *)
Theorem C72_address_host_refuted url_host : url_host (B "wss://h/a") = Some (B "h") -> url_host (B "wss://h/b") = Some (B "h") -> address_string url_host (B "wss://h/a") (B "x") = address_string url_host (B "wss://h/b") (B "x").
Proof. intros H1 H2. unfold address_string. rewrite H1, H2. reflexivity. Qed.
Theorem C72_address_panic_refuted url_host relay id : url_host relay = None -> address_string url_host relay id = Panic.
Proof. intro H. unfold address_string. rewrite H. reflexivity. Qed.
(** A new group from an address: exactly two parts, the id is the name until there is another. *)
Lemma cut_parts raw : forall h id, cut quote1 raw = Some (h, id) -> raw = h ++ quote1 :: id /\ existsb (fun c => ceqb c quote1) h = false.
Proof.
  induction raw as [|c raw IH]; intros h id H; [discriminate|]. cbn [cut] in H. destruct (ceqb c quote1) eqn:E.
  - assert (h = []) as -> by congruence. assert (id = raw) as -> by congruence. apply Ascii.eqb_eq in E. subst c. split; reflexivity.
  - destruct (cut quote1 raw) as [[a b]|]; [|discriminate]. assert (h = c :: a) as -> by congruence. assert (b = id) as -> by congruence. destruct (IH a id eq_refl) as [-> Q]. split; [reflexivity|]. cbn [existsb]. rewrite E. exact Q.
Qed.
Theorem C72_new_group normalize raw g : new_group normalize raw = Some g <->
  exists h id, raw = h ++ B "'" ++ id /\ existsb (fun c => ceqb c "'"%char) (h ++ id) = false /\ g = fresh (normalize h) id [].
Proof.
  unfold new_group, parse_address. split.
  - destruct (cut quote1 raw) as [[h id]|] eqn:C; [|discriminate]. destruct (existsb (fun c => ceqb c quote1) id) eqn:Q; [discriminate|]. intro H. apply cut_parts in C. destruct C as [-> Q1]. exists h, id. split; [reflexivity|]. split; [rewrite existsb_app; fold quote1; rewrite Q1, Q; reflexivity|]. unfold fresh. congruence.
  - intros (h & id & -> & Q & ->). rewrite existsb_app in Q. apply orb_false_elim in Q. destruct Q as [Q1 Q2]. change (B "'" ++ id) with (quote1 :: id). rewrite cut_quote by exact Q1. change (existsb (fun c => ceqb c quote1) id) with (existsb (fun c => ceqb c "'"%char) id). rewrite Q2. reflexivity.
Qed.
(** The group read from its own metadata event has its address and metadata and nothing else. *)
Theorem C72_from_event g : gr_name g <> [] -> 0 <= gr_meta_at g ->
  group_from_event (gr_relay g) (to_metadata g) = Ok (mkGroup (gr_relay g) (gr_id g) (gr_name g) (gr_picture g) (gr_about g) [] (gr_private g) (gr_closed g) [] (gr_meta_at g) 0 0 0).
Proof.
  intros N T. unfold group_from_event. assert (D : get_d (ev_tags (to_metadata g)) = gr_id g) by reflexivity. rewrite D. change (mkGroup (gr_relay g) (gr_id g) (gr_id g) [] [] [] false false [] 0 0 0 0) with (fresh (gr_relay g) (gr_id g) []).
  rewrite C72_merge_metadata. change (ev_kind (to_metadata g)) with 39000. change (ev_created_at (to_metadata g)) with (gr_meta_at g). change (gr_meta_at (fresh _ _ _)) with 0. destruct (Z.leb_spec 0 (gr_meta_at g)); [|lia]. cbn [Z.eqb Pos.eqb andb]. unfold with_meta, to_metadata, plain_event, metadata_tags. cbn [gr_relay gr_name gr_picture gr_about gr_private gr_closed gr_meta_at gr_admins_at gr_members_at gr_roles_at gr_members gr_roles ev_tags fresh gr_id].
  destruct (gr_name g) as [|c n]; [congruence|]. destruct (gr_picture g), (gr_about g), (gr_private g), (gr_closed g); reflexivity.
Qed.
(** What others read in the events of a group: its id, whether it is private or public, open or closed, and its roles in order. *)
Definition roles_in (ts : list tag) : list role := flat_map (fun t => match t with [k; n; d] => if seqb k (B "role") then [mkRole n d] else [] | _ => [] end) ts.
Theorem C72_events_say g :
  (ev_kind (to_metadata g), ev_kind (to_admins g), ev_kind (to_members g), ev_kind (to_roles g)) = (39000, 39001, 39002, 39003) /\
  Forall (fun e => get_d (ev_tags e) = gr_id g /\ ev_content e = [] /\ ev_pubkey e = []) [to_metadata g; to_admins g; to_members g; to_roles g] /\
  (In [B "public"] (ev_tags (to_metadata g)) <-> gr_private g = false) /\ (In [B "private"] (ev_tags (to_metadata g)) <-> gr_private g = true) /\
  (In [B "open"] (ev_tags (to_metadata g)) <-> gr_closed g = false) /\ (In [B "closed"] (ev_tags (to_metadata g)) <-> gr_closed g = true) /\
  roles_in (ev_tags (to_roles g)) = gr_roles g.
Proof.
  assert (M : forall w, length w = 1%nat -> (In w (ev_tags (to_metadata g)) <-> w = (if gr_private g then [B "private"] else [B "public"]) \/ w = (if gr_closed g then [B "closed"] else [B "open"]))).
  { intros w L. unfold to_metadata, plain_event, metadata_tags. cbn [ev_tags]. split.
    - intro H. rewrite !in_app_iff in H. destruct H as [[<-|[]]|[H|[H|[H|[[<-|[]]|[<-|[]]]]]]]; [discriminate| | | |left; reflexivity|right; reflexivity]; exfalso; [destruct (gr_name g)|destruct (gr_about g)|destruct (gr_picture g)]; (destruct H; subst; try discriminate; try contradiction).
    - rewrite !in_app_iff. intros [->| ->]; [right; right; right; right; left; left|right; right; right; right; right; left]; reflexivity. }
  split; [reflexivity|]. split; [repeat (constructor; [split; [reflexivity|split; reflexivity]|]); constructor|].
  repeat match goal with |- (In _ _ <-> _) /\ _ => split; [rewrite M by (cbn; reflexivity); destruct (gr_private g), (gr_closed g); (split; [intros [H|H]; (discriminate || reflexivity)|intro H; first [discriminate|(left; reflexivity)|(right; reflexivity)]])|] end.
  unfold to_roles, plain_event. cbn [ev_tags]. unfold roles_in. cbn [flat_map]. induction (gr_roles g) as [|[n d] l IH]; [reflexivity|]. cbn [map flat_map ro_name ro_description]. change (seqb (B "role") (B "role")) with true. cbn [app]. f_equal. exact IH.
Qed.
Example C72_new_applies : new_group (fun s => B "wss://" ++ s) (B "relay.com'pals") = Some (fresh (B "wss://relay.com") (B "pals") []).
Proof. reflexivity. Qed.

(** * C78: membership in a list of kinds *)
Lemma ascending_lt l : StronglySorted Z.lt l -> forall i j, (i < j < length l)%nat -> nth i l 0 < nth j l 0.
Proof.
  induction 1 as [|x l S IH F]; intros i j H; cbn [length] in H; [lia|]. destruct j as [|j]; [lia|]. destruct i as [|i]; cbn [nth].
  - apply (proj1 (Forall_forall _ _) F). apply nth_In. lia.
  - apply IH. lia.
Qed.
Lemma search_spec l x : StronglySorted Z.lt l -> forall fuel i j, (j - i <= fuel)%nat -> (i <= j <= length l)%nat -> (forall k, (k < i)%nat -> nth k l 0 < x) -> (forall k, (j <= k < length l)%nat -> x <= nth k l 0) ->
  let p := search fuel l x i j in (p <= length l)%nat /\ (forall k, (k < p)%nat -> nth k l 0 < x) /\ (forall k, (p <= k < length l)%nat -> x <= nth k l 0).
Proof.
  intro S. induction fuel as [|f IH]; intros i j Hf Hij HL HR; cbn [search]. { assert (i = j) by lia. subst. cbv zeta. repeat split; [lia|exact HL|exact HR]. }
  destruct (Nat.ltb_spec i j) as [L|L]. 2: { assert (i = j) by lia. subst. cbv zeta. repeat split; [lia|exact HL|exact HR]. }
  assert (D : (i <= Nat.div2 (i + j) < j)%nat). { rewrite Nat.div2_div. split; [apply Nat.div_le_lower_bound; lia|apply Nat.div_lt_upper_bound; lia]. }
  cbv zeta. set (h := Nat.div2 (i + j)) in *. clearbody h. destruct (Z.ltb_spec (nth h l 0) x) as [V|V].
  - apply IH; [lia|lia| |exact HR]. intros k Hk. destruct (Nat.eq_dec k h) as [->|]; [exact V|]. pose proof (ascending_lt l S k h ltac:(lia)). lia.
  - apply IH; [lia|lia|exact HL|]. intros k Hk. destruct (Nat.eq_dec k h) as [->|]; [exact V|]. pose proof (ascending_lt l S h k ltac:(lia)). lia.
Qed.
Theorem C78 l x : StronglySorted Z.lt l -> (includes l x = true <-> In x l).
Proof.
  intro S. unfold includes. destruct (search_spec l x S (length l) 0 (length l)) as (P & L & R); [lia|lia|intros k Hk; lia|intros k Hk; lia|]. set (p := search _ _ _ _ _) in *. clearbody p. cbv zeta. rewrite andb_true_iff, Nat.ltb_lt, Z.eqb_eq. split.
  - intros [Q <-]. apply nth_In. exact Q.
  - intro I. apply (In_nth _ _ 0) in I. destruct I as (k & K & E). assert (p <= k)%nat. { destruct (Nat.le_gt_cases p k); [assumption|]. pose proof (L k ltac:(lia)). lia. } assert (p < length l)%nat by lia. split; [assumption|]. pose proof (R p ltac:(lia)). destruct (Nat.eq_dec p k) as [->|]; [exact E|]. pose proof (ascending_lt l S p k ltac:(lia)). lia.
Qed.
Corollary C78_moderation x : includes moderation_kinds x = true <-> In x [9000; 9001; 9002; 9005; 9007; 9008; 9009].
Proof. apply C78. repeat (constructor; [|repeat (constructor; [lia|]); try constructor]). constructor. Qed.
Corollary C78_metadata x : includes metadata_kinds x = true <-> In x [39000; 39001; 39002; 39003].
Proof. apply C78. repeat (constructor; [|repeat (constructor; [lia|]); try constructor]). constructor. Qed.
Example C78_applies : includes moderation_kinds 9005 = true /\ includes moderation_kinds 9003 = false /\ includes [] 0 = false.
Proof. repeat split. Qed.
(** On a list that is not ascending it may miss. *)
Theorem C78_unsorted_refuted : exists l x, In x l /\ includes l x = false.
Proof. exists [3; 1; 2], 3. split; [left; reflexivity|reflexivity]. Qed.

Print Assumptions C72_merge_metadata.
Print Assumptions C72_metadata.
Print Assumptions C72_no_name_refuted.
Print Assumptions C72_reopened_refuted.
Print Assumptions C72_prefix_refuted.
Print Assumptions C72_merge_admins.
Print Assumptions C72_merge_members.
Print Assumptions C72_members.
Print Assumptions C72_roles.
Print Assumptions C72_roles_lost_refuted.
Print Assumptions C72_roles_time_refuted.
Print Assumptions C72_twice_refuted.
Print Assumptions C72_removed_refuted.
Print Assumptions C72_older_refused.
Print Assumptions C72_newest_name.
Print Assumptions C72_order_refuted.
Print Assumptions C72_address.
Print Assumptions C72_address_host_refuted.
Print Assumptions C72_address_panic_refuted.
Print Assumptions C78.
Print Assumptions C78_moderation.
Print Assumptions C78_metadata.
Print Assumptions C78_unsorted_refuted.

Print Assumptions C72_new_group.
Print Assumptions C72_from_event.
Print Assumptions C72_events_say.
