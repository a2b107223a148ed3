(** C114: the settings of an ecash wallet (its mints and its key), its token events, and the signatures on locked proofs. *)
From Verif Require Import Base EventModel Nip19Model Nip19Proofs IdentModel Bech32Model Machine WalletModel WalletLoadModel Props_WalletLoad HttpUrlModel HttpUrlProofs Props_HttpUrl KeyModel KeyProofs Props_Key BlindModel Props_Blind MintModel.
Import ListNotations.
Local Open Scope Z_scope.

(** ** Specification *)
Definition names (url u : str) : Prop := normalize_http url = (u, true).
Definition all_name (urls us : list str) : Prop := Forall2 names urls us.
Definition disjoint (a b : list str) : Prop := forall x, In x a -> ~ In x b.
Definition str_dec : forall a b : str, {a = b} + {a <> b} := list_eq_dec ascii_dec.
Definition count (u : str) (l : list str) : nat := count_occ str_dec l u.

Section Settings.
Variable collides : list str -> str -> bool.
Variable key_of : str -> str.
Variable encrypt : str -> str.
Variable tags_json : list tag -> str.
Local Notation add_mint := (add_mint collides encrypt tags_json). Local Notation remove_mint := (remove_mint encrypt tags_json).
Local Notation set_private_key := (set_private_key key_of encrypt tags_json). Local Notation call := (call collides key_of encrypt tags_json).
Local Notation calls := (calls collides key_of encrypt tags_json). Local Notation content := (meta_content encrypt tags_json).
Local Notation check_ids := (check_ids collides). Local Notation add_mints := (add_mints collides).

Lemma finish_ok wd w ok : dn_ok (finish_update encrypt tags_json wd w ok) = true -> ok = true /\ wd_signs wd = true /\ finish_update encrypt tags_json wd w ok = mkDone w (Some (content w)) true.
Proof. unfold finish_update. destruct ok, (wd_signs wd); cbn [andb dn_ok]; try discriminate. auto. Qed.
Lemma finish_wallet wd w ok : dn_wallet (finish_update encrypt tags_json wd w ok) = w.
Proof. unfold finish_update. destruct (ok && wd_signs wd); reflexivity. Qed.
Lemma finish_published wd w ok : dn_published (finish_update encrypt tags_json wd w ok) = if dn_ok (finish_update encrypt tags_json wd w ok) then Some (content w) else None.
Proof. unfold finish_update. destruct (ok && wd_signs wd); reflexivity. Qed.

(** the mints that were added, whatever the outcome *)
Lemma add_mints_spec ks urls : forall ids mints l ok, add_mints ks ids mints urls = (l, ok) ->
  exists fresh us rest, l = mints ++ fresh /\ NoDup fresh /\ (exists done, urls = done ++ rest /\ all_name done us) /\ (ok = true -> rest = []) /\
    (forall u, In u fresh <-> In u us /\ ~ In u mints) /\ (forall u, In u fresh -> exists new, ks u = Some new).
Proof.
  induction urls as [|url r IH]; intros ids mints l ok H; cbn [MintModel.add_mints] in H.
  - assert (l = mints /\ ok = true) as [-> ->] by (split; congruence). exists [], [], []. rewrite app_nil_r. split; [reflexivity|]. split; [constructor|]. split; [exists []; split; [reflexivity|constructor]|]. split; [reflexivity|]. split; [intro u; split; [intros []|intros [[] _]]|intros u []].
  - assert (STOP : (l, ok) = (mints, false) -> exists fresh us rest, l = mints ++ fresh /\ NoDup fresh /\ (exists done, url :: r = done ++ rest /\ all_name done us) /\ (ok = true -> rest = []) /\
      (forall u, In u fresh <-> In u us /\ ~ In u mints) /\ (forall u, In u fresh -> exists new, ks u = Some new)).
    { intro Q. assert (l = mints /\ ok = false) as [-> ->] by (split; congruence). exists [], [], (url :: r). rewrite app_nil_r. split; [reflexivity|]. split; [constructor|]. split; [exists []; split; [reflexivity|constructor]|]. split; [discriminate|]. split; [intro u; split; [intros []|intros [[] _]]|intros u []]. }
    destruct (normalize_http url) as [u nok] eqn:N. destruct nok; cbn [negb] in H; [|apply STOP; congruence]. destruct (smem u mints) eqn:M.
    + apply smem_In in M. destruct (IH _ _ _ _ H) as (fresh & us & rest & E & ND & (dn & ED & AN) & OK & IN & KS). exists fresh, (u :: us), rest. split; [exact E|]. split; [exact ND|]. split; [exists (url :: dn); split; [cbn [app]; rewrite ED; reflexivity|constructor; assumption]|]. split; [exact OK|]. split; [|exact KS].
      intro x. rewrite IN. split; [intros [A1 A2]; split; [right; exact A1|exact A2]|]. intros [[<-|A1] A2]; [contradiction|auto].
    + destruct (ks u) as [new|] eqn:K; [|apply STOP; congruence]. destruct (check_ids ids new) as [ids'|]; [|apply STOP; congruence].
      destruct (IH _ _ _ _ H) as (fresh & us & rest & E & ND & (dn & ED & AN) & OK & IN & KS). assert (NM : ~ In u mints) by (intro Q; apply smem_In in Q; congruence).
      exists (u :: fresh), (u :: us), rest. split; [rewrite E, <- app_assoc; reflexivity|]. split; [apply NoDup_cons; [|exact ND]; rewrite IN; intros [_ Q]; apply Q, in_or_app; right; left; reflexivity|].
      split; [exists (url :: dn); split; [cbn [app]; rewrite ED; reflexivity|constructor; assumption]|]. split; [exact OK|]. split.
      * intro x. split.
        -- intros [<-|Q]; [split; [left; reflexivity|exact NM]|]. apply IN in Q as [Q1 Q2]. split; [right; exact Q1|]. intro Q. apply Q2, in_or_app. left. exact Q.
        -- intros [[<-|Q1] Q2]; [left; reflexivity|]. destruct (str_dec u x) as [->|NE]; [left; reflexivity|]. right. apply IN. split; [exact Q1|]. intro Q. apply in_app_iff in Q as [Q|[Q|[]]]; [exact (Q2 Q)|exact (NE Q)].
      * intros x [<-|Q]; [eauto|apply KS; exact Q].
Qed.

(** ** Adding: the mints asked for are there afterwards, each once, behind the others; the key stays, and all of it is published. *)
Theorem C114_add wd urls w : dn_ok (add_mint wd urls w) = true -> exists us fresh, all_name urls us /\ dn_wallet (add_mint wd urls w) = mkW (wm_event w) (wm_key w) (wm_mints w ++ fresh) /\
  NoDup fresh /\ (forall u, In u fresh <-> In u us /\ ~ In u (wm_mints w)) /\ dn_published (add_mint wd urls w) = Some (content (dn_wallet (add_mint wd urls w))).
Proof.
  unfold MintModel.add_mint. destruct (wd_publishes wd); cbn [negb dn_ok]; [|discriminate]. destruct (known_ids (wd_keysets wd) (wm_mints w)) as [ids|]; [|discriminate]. destruct (add_mints (wd_keysets wd) ids (wm_mints w) urls) as [l ok] eqn:A.
  intro H. destruct (finish_ok _ _ _ H) as (-> & _ & ->). destruct (add_mints_spec _ _ _ _ _ _ A) as (fresh & us & rest & -> & ND & (dn & ED & AN) & OK & IN & _). rewrite (OK eq_refl), app_nil_r in ED. subst dn.
  exists us, fresh. split; [exact AN|]. split; [reflexivity|]. split; [exact ND|]. split; [exact IN|reflexivity].
Qed.

(** ** No two mints with the same keyset: a mint that was added has no keyset twice and none in common with any other mint. *)
Lemma check_ids_spec (law : forall ids x, In x ids -> collides ids x = true) new : forall ids ids', check_ids ids new = Some ids' -> ids' = ids ++ new /\ NoDup new /\ disjoint new ids.
Proof.
  induction new as [|i r IH]; intros ids ids' H; cbn [MintModel.check_ids] in H.
  - assert (ids' = ids) as -> by congruence. rewrite app_nil_r. split; [reflexivity|]. split; [constructor|intros x []].
  - destruct (collides ids i) eqn:C; [discriminate|]. destruct (IH _ _ H) as (-> & ND & DJ). rewrite <- app_assoc. split; [reflexivity|]. split.
    + apply NoDup_cons; [|exact ND]. intro Q. apply (DJ i Q), in_or_app. right. left. reflexivity.
    + intros x [<-|Q] Q'; [rewrite (law _ _ Q') in C; discriminate|]. apply (DJ x Q), in_or_app. left. exact Q'.
Qed.
Lemma known_ids_in ks l : forall ids, known_ids ks l = Some ids -> forall m, In m l -> exists k, ks m = Some k /\ incl k ids.
Proof.
  induction l as [|x l IH]; intros ids H m; [intros []|]. cbn [known_ids] in H. destruct (ks x) as [k|] eqn:K; [|discriminate]. destruct (known_ids ks l) as [r|] eqn:R; [|discriminate]. assert (ids = k ++ r) as -> by (cbn in H; congruence).
  intros [<-|Q]; [exists k; split; [exact K|apply incl_appl, incl_refl]|]. destruct (IH r eq_refl m Q) as (k' & K' & I'). exists k'. split; [exact K'|apply incl_appr; exact I'].
Qed.
Lemma add_mints_disjoint (law : forall ids x, In x ids -> collides ids x = true) ks urls : forall ids mints l ok,
  (forall m, In m mints -> exists k, ks m = Some k /\ incl k ids) -> add_mints ks ids mints urls = (l, ok) ->
  forall m m', In m l -> ~ In m mints -> In m' l -> m <> m' -> exists k k', ks m = Some k /\ ks m' = Some k' /\ NoDup k /\ disjoint k k'.
Proof.
  induction urls as [|url r IH]; intros ids mints l ok K H m m' I1 NI I2 NE; cbn [MintModel.add_mints] in H.
  - assert (l = mints) as -> by congruence. contradiction.
  - destruct (normalize_http url) as [u nok]. destruct nok; cbn [negb] in H; [|assert (l = mints) as -> by congruence; contradiction]. destruct (smem u mints) eqn:M; [apply (IH _ _ _ _ K H); assumption|].
    destruct (ks u) as [new|] eqn:KU; [|assert (l = mints) as -> by congruence; contradiction]. destruct (check_ids ids new) as [ids'|] eqn:CK; [|assert (l = mints) as -> by congruence; contradiction].
    destruct (check_ids_spec law _ _ _ CK) as (-> & ND & DJ).
    assert (K' : forall x, In x (mints ++ [u]) -> exists k, ks x = Some k /\ incl k (ids ++ new)). { intros x Q. apply in_app_iff in Q as [Q|[<-|[]]]; [destruct (K x Q) as (k & E & I0); exists k; split; [exact E|apply incl_appl; exact I0]|exists new; split; [exact KU|apply incl_appr, incl_refl]]. }
    destruct (str_dec u m) as [<-|NU]; [|apply (IH _ _ _ _ K' H m m' I1); [|exact I2|exact NE]; intro Q; apply in_app_iff in Q as [Q|[Q|[]]]; [exact (NI Q)|exact (NU Q)]].
    destruct (in_dec str_dec m' mints) as [OLD|NEW].
    + destruct (K m' OLD) as (k' & E' & I'). exists new, k'. split; [exact KU|]. split; [exact E'|]. split; [exact ND|]. intros x Q Q'. exact (DJ x Q (I' x Q')).
    + destruct (IH _ _ _ _ K' H m' u I2) as (k' & k & E' & E & _ & D); [intro Q; apply in_app_iff in Q as [Q|[Q|[]]]; [exact (NEW Q)|exact (NE Q)]|exact I1|congruence|]. assert (k = new) as -> by congruence.
      exists new, k'. split; [exact KU|]. split; [exact E'|]. split; [exact ND|]. intros x Q Q'. exact (D x Q' Q).
Qed.
Theorem C114_keysets_apart wd urls w m m' : (forall ids x, In x ids -> collides ids x = true) -> let l := wm_mints (dn_wallet (add_mint wd urls w)) in
  In m l -> ~ In m (wm_mints w) -> In m' l -> m <> m' -> exists k k', wd_keysets wd m = Some k /\ wd_keysets wd m' = Some k' /\ NoDup k /\ disjoint k k'.
Proof.
  intros law. unfold MintModel.add_mint. destruct (wd_publishes wd); cbn [negb dn_wallet]; [|intros; contradiction]. destruct (known_ids (wd_keysets wd) (wm_mints w)) as [ids|] eqn:KN; [|cbn [dn_wallet]; intros; contradiction].
  destruct (add_mints (wd_keysets wd) ids (wm_mints w) urls) as [l ok] eqn:A. rewrite finish_wallet. cbn [wm_mints with_mints]. intros. eapply (add_mints_disjoint law); try eassumption. apply known_ids_in. exact KN.
Qed.

(** ** When adding works: PublishUpdate is set, the keyer signs, all mints held before and all new ones answer, all urls can be read, and the keysets are apart. *)
Fixpoint fresh_of (mints us : list str) : list str := match us with [] => [] | u :: r => if smem u mints then fresh_of mints r else u :: fresh_of (mints ++ [u]) r end.
Lemma add_mints_ok (law : forall ids x, collides ids x = smem x ids) ks urls : forall us ids mints, all_name urls us ->
  (snd (add_mints ks ids mints urls) = true <-> exists new, known_ids ks (fresh_of mints us) = Some new /\ NoDup new /\ disjoint new ids).
Proof.
  assert (CK : forall new ids, check_ids ids new = if (fix ok ids new := match new with [] => true | i :: r => negb (smem i ids) && ok (ids ++ [i]) r end) ids new then Some (ids ++ new) else None).
  { induction new as [|i r IH]; intro ids; cbn [MintModel.check_ids]; [rewrite app_nil_r; reflexivity|]. rewrite law. destruct (smem i ids); [reflexivity|]. cbn [negb andb]. rewrite IH, <- app_assoc. reflexivity. }
  assert (CI : forall new ids, (exists ids', check_ids ids new = Some ids') <-> NoDup new /\ disjoint new ids).
  { intros new ids. split; [intros [ids' H]; refine (match check_ids_spec _ _ _ _ H with conj _ p => p end); intros ? ? Q; rewrite law; apply smem_In; exact Q|]. revert ids. induction new as [|i r IH]; intros ids [ND DJ]; cbn [MintModel.check_ids]; [eauto|].
    rewrite law. assert (N : ~ In i ids) by (apply DJ; left; reflexivity). destruct (smem i ids) eqn:E; [apply smem_In in E; contradiction|]. apply IH. inversion ND as [|? ? N1 N2]; subst. split; [exact N2|]. intros x Q Q'. apply in_app_iff in Q' as [Q'|[<-|[]]]; [apply (DJ x); [right; exact Q|exact Q']|contradiction]. }
  induction urls as [|url r IH]; intros us ids mints AN; inversion AN as [|? u ? us' N AN']; subst; clear AN; cbn [MintModel.add_mints fresh_of known_ids].
  - split; [intros _; exists []; split; [reflexivity|]; split; [constructor|intros x []]|reflexivity].
  - unfold names in N. rewrite N. cbn [negb]. destruct (smem u mints); [apply IH; exact AN'|]. cbn [known_ids]. destruct (ks u) as [k|] eqn:K; [|split; [discriminate|intros (new & Q & _); discriminate]].
    destruct (check_ids ids k) as [ids'|] eqn:C.
    + assert (E : ids' = ids ++ k /\ NoDup k /\ disjoint k ids) by (eapply check_ids_spec; [|exact C]; intros ? ? Q; rewrite law; apply smem_In; exact Q). destruct E as (-> & N1 & D1). rewrite (IH us' (ids ++ k) (mints ++ [u]) AN'). split.
      * intros (new & Q & N2 & D2). exists (k ++ new). rewrite Q. split; [reflexivity|]. split.
        -- clear -N1 N2 D2. induction k as [|x k IHk]; [exact N2|]. inversion N1 as [|? ? A1 A2]; subst. cbn [app]. apply NoDup_cons.
           ++ intro Q. apply in_app_iff in Q as [Q|Q]; [exact (A1 Q)|]. apply (D2 x Q), in_or_app. right. left. reflexivity.
           ++ apply IHk; [exact A2|]. intros y Q Q'. apply (D2 y Q). apply in_app_iff in Q' as [Q'|Q']; apply in_or_app; [left; exact Q'|right; right; exact Q'].
        -- intros x Qx Q'. apply in_app_iff in Qx as [Qx|Qx]; [exact (D1 x Qx Q')|]. apply (D2 x Qx), in_or_app. left. exact Q'.
      * intros (new & Q & N2 & D2). destruct (known_ids ks (fresh_of (mints ++ [u]) us')) as [new'|]; [|discriminate]. assert (new = k ++ new') as -> by (cbn in Q; congruence). exists new'. split; [reflexivity|].
        assert (SPLIT : NoDup new' /\ disjoint new' k). { clear -N2. induction k as [|x k IHk]; [split; [exact N2|intros ? ? []]|]. cbn [app] in N2. inversion N2 as [|? ? A1 A2]; subst. destruct (IHk A2) as [B1 B2]. split; [exact B1|]. intros y Q [<-|Q']; [apply A1, in_or_app; right; exact Q|exact (B2 y Q Q')]. }
        split; [exact (proj1 SPLIT)|]. intros x Qx Q'. apply in_app_iff in Q' as [Q'|Q']; [apply (D2 x); [apply in_or_app; right; exact Qx|exact Q']|exact (proj2 SPLIT x Qx Q')].
    + split; [discriminate|]. intros (new & Q & N2 & D2). exfalso. destruct (known_ids ks (fresh_of (mints ++ [u]) us')) as [new'|]; [|discriminate]. assert (new = k ++ new') as -> by (cbn in Q; congruence).
      assert (exists ids', check_ids ids k = Some ids') as [? ?]; [|congruence]. apply CI. split; [|intros x Qx; apply D2, in_or_app; left; exact Qx].
      clear -N2. induction k as [|x k IHk]; [constructor|]. cbn [app] in N2. inversion N2 as [|? ? A1 A2]; subst. apply NoDup_cons; [intro Q; apply A1, in_or_app; left; exact Q|exact (IHk A2)].
Qed.
Theorem C114_add_works wd urls us w : (forall ids x, collides ids x = smem x ids) -> all_name urls us ->
  (dn_ok (add_mint wd urls w) = true <-> wd_publishes wd = true /\ wd_signs wd = true /\
     exists old new, known_ids (wd_keysets wd) (wm_mints w) = Some old /\ known_ids (wd_keysets wd) (fresh_of (wm_mints w) us) = Some new /\ NoDup new /\ disjoint new old).
Proof.
  intros law AN. unfold MintModel.add_mint. destruct (wd_publishes wd); cbn [negb dn_ok]; [|split; [discriminate|intros [Q _]; discriminate]]. destruct (known_ids (wd_keysets wd) (wm_mints w)) as [ids|] eqn:KN; [|cbn [dn_ok]; split; [discriminate|intros (_ & _ & old & new & Q & _); discriminate]].
  pose proof (add_mints_ok law (wd_keysets wd) urls us ids (wm_mints w) AN) as AO. destruct (add_mints (wd_keysets wd) ids (wm_mints w) urls) as [l ok]. cbn [snd] in AO. unfold finish_update. destruct ok; cbn [andb].
  - destruct (wd_signs wd); cbn [dn_ok]; [|split; [discriminate|intros (_ & Q & _); discriminate]]. split; [intros _|reflexivity]. split; [reflexivity|]. split; [reflexivity|]. destruct (proj1 AO eq_refl) as (new & Q1 & Q2 & Q3). exists ids, new. auto.
  - cbn [dn_ok]. split; [discriminate|]. intros (_ & _ & old & new & Q1 & Q2 & Q3 & Q4). assert (old = ids) as -> by congruence. apply (proj2 AO). exists new. auto.
Qed.
(** False: a mint that does not answer keeps the others usable; as long as it is in the list no mint can be added. *)
Theorem C114_dead_mint_refuted wd urls w m : In m (wm_mints w) -> wd_keysets wd m = None -> add_mint wd urls w = mkDone w None false.
Proof.
  intros I0 D. unfold MintModel.add_mint. destruct (wd_publishes wd); cbn [negb]; [|reflexivity]. destruct (known_ids (wd_keysets wd) (wm_mints w)) as [ids|] eqn:K; [|reflexivity]. destruct (known_ids_in _ _ _ K m I0) as (k & Q & _). congruence.
Qed.

(** ** Removing: each url takes away one mint of its name, if there is one, and nothing else. *)
Lemma count_remove u v l : count u (remove_first v l) = if str_dec v u then (count u l - 1)%nat else count u l.
Proof.
  unfold count. induction l as [|x l IH]; [destruct (str_dec v u); reflexivity|]. cbn [remove_first]. destruct (seqb_spec x v) as [->|NE].
  - cbn [count_occ]. destruct (str_dec v u); [lia|reflexivity].
  - cbn [count_occ]. rewrite IH. destruct (str_dec x u) as [->|N2]; [|reflexivity]. destruct (str_dec v u) as [->|_]; [contradiction|]. reflexivity.
Qed.
Lemma remove_mints_spec urls : forall mints l ok, remove_mints mints urls = (l, ok) -> ok = true -> exists us, all_name urls us /\ l = fold_left (fun a u => remove_first u a) us mints.
Proof.
  induction urls as [|url r IH]; intros mints l ok H OK; cbn [remove_mints] in H; [exists []; split; [constructor|cbn; congruence]|]. destruct (normalize_http url) as [u nok] eqn:N. destruct nok; cbn [negb] in H; [|congruence].
  destruct (IH _ _ _ H OK) as (us & AN & ->). exists (u :: us). split; [constructor; assumption|reflexivity].
Qed.
Lemma fold_remove_count us : forall l u, count u (fold_left (fun a u => remove_first u a) us l) = (count u l - count u us)%nat.
Proof. induction us as [|v us IH]; intros l u; cbn [fold_left]; [unfold count at 3; cbn; lia|]. rewrite IH, count_remove. unfold count at 5. cbn [count_occ]. fold (count u us). destruct (str_dec v u); lia. Qed.
Lemma remove_mint_ok wd urls w : dn_ok (remove_mint wd urls w) = true -> exists us, all_name urls us /\ wd_signs wd = true /\
  remove_mint wd urls w = let w' := with_mints w (fold_left (fun a u => remove_first u a) us (wm_mints w)) in mkDone w' (Some (content w')) true.
Proof.
  unfold MintModel.remove_mint. destruct (wd_publishes wd); cbn [negb dn_ok]; [|discriminate]. destruct (remove_mints (wm_mints w) urls) as [l ok] eqn:R. intro H. destruct (finish_ok _ _ _ H) as (OK & S0 & E). destruct (remove_mints_spec _ _ _ _ R OK) as (us & AN & ->). exists us. rewrite E. auto.
Qed.
Theorem C114_remove wd urls w : dn_ok (remove_mint wd urls w) = true -> exists us, all_name urls us /\
  (forall u, count u (wm_mints (dn_wallet (remove_mint wd urls w))) = (count u (wm_mints w) - count u us)%nat) /\
  wm_key (dn_wallet (remove_mint wd urls w)) = wm_key w /\ dn_published (remove_mint wd urls w) = Some (content (dn_wallet (remove_mint wd urls w))).
Proof. intro H. destruct (remove_mint_ok _ _ _ H) as (us & AN & _ & ->). exists us. split; [exact AN|]. cbn [dn_wallet dn_published wm_mints wm_key with_mints]. split; [intro u; apply fold_remove_count|]. split; reflexivity. Qed.
(** Without repetitions: all of that name are gone and the others keep their order. *)
Lemma remove_first_nodup u l : NoDup l -> remove_first u l = filter (fun m => negb (seqb m u)) l.
Proof.
  induction 1 as [|x l NI ND IH]; [reflexivity|]. cbn [remove_first filter]. destruct (seqb_spec x u) as [->|NE]; cbn [negb]; [|rewrite IH; reflexivity].
  clear IH ND. induction l as [|y l IH]; [reflexivity|]. cbn [filter]. destruct (seqb_spec y u) as [->|N]; [exfalso; apply NI; left; reflexivity|]. cbn [negb]. f_equal. apply IH. intro Q. apply NI. right. exact Q.
Qed.
Lemma filter_filter {A} (f g : A -> bool) l : filter f (filter g l) = filter (fun x => g x && f x) l.
Proof. induction l as [|x l IH]; [reflexivity|]. cbn [filter]. destruct (g x); cbn [filter andb]; rewrite IH; reflexivity. Qed.
Lemma fold_remove_nodup us : forall l, NoDup l -> fold_left (fun a u => remove_first u a) us l = filter (fun m => negb (smem m us)) l.
Proof.
  induction us as [|u us IH]; intros l ND; cbn [fold_left]; [symmetry; unfold smem; cbn [existsb negb]; clear; induction l as [|x l IH]; [reflexivity|]; cbn [filter]; rewrite IH; reflexivity|].
  rewrite (remove_first_nodup _ _ ND), IH by (apply NoDup_filter; exact ND). rewrite filter_filter. apply filter_ext. intro x. unfold smem. cbn [existsb]. rewrite negb_orb. reflexivity.
Qed.
Theorem C114_removed wd urls w : NoDup (wm_mints w) -> dn_ok (remove_mint wd urls w) = true -> exists us, all_name urls us /\ wm_mints (dn_wallet (remove_mint wd urls w)) = filter (fun m => negb (smem m us)) (wm_mints w).
Proof. intros ND H. destruct (remove_mint_ok _ _ _ H) as (us & AN & _ & ->). exists us. split; [exact AN|]. apply fold_remove_nodup. exact ND. Qed.
(** Adding and removing cancel out, however the two urls are spelled. *)
Theorem C114_cancel wd wd' a b u w : names a u -> names b u -> ~ In u (wm_mints w) -> let w1 := dn_wallet (add_mint wd [a] w) in
  dn_ok (add_mint wd [a] w) = true -> dn_ok (remove_mint wd' [b] w1) = true -> In u (wm_mints w1) /\ dn_wallet (remove_mint wd' [b] w1) = w.
Proof.
  intros NA NB NI w1 H1 H2. destruct (C114_add _ _ _ H1) as (us & fresh & AN & E & ND & IN & _). inversion AN as [|? u1 ? ? N0 AN' E1 E2]; subst. inversion AN'; subst. unfold names in *. assert (u1 = u) as -> by congruence.
  assert (F : fresh = [u]). { assert (Iu : In u fresh) by (apply IN; split; [left; reflexivity|exact NI]). destruct fresh as [|x [|y r]]; [destruct Iu| |].
    - destruct Iu as [->|[]]. reflexivity.
    - exfalso. assert (x = u) by (destruct (proj1 (IN x) (or_introl eq_refl)) as [[Q|[]] _]; congruence). assert (y = u) by (destruct (proj1 (IN y) (or_intror (or_introl eq_refl))) as [[Q|[]] _]; congruence). subst. inversion ND as [|? ? Q _]. apply Q. left. reflexivity. }
  subst fresh. fold w1 in E. rewrite E. cbn [wm_mints]. split; [apply in_or_app; right; left; reflexivity|]. rewrite E in H2. destruct (remove_mint_ok _ _ _ H2) as (us & AN2 & _ & ->). inversion AN2 as [|? u2 ? ? N2 AN3]; subst. inversion AN3; subst. unfold names in N2. assert (u2 = u) as -> by congruence.
  cbn [dn_wallet fold_left with_mints wm_mints wm_event wm_key]. assert (R : forall l, ~ In u l -> remove_first u (l ++ [u]) = l). { induction l as [|x l IH]; intro Q; cbn [app remove_first]; [rewrite seqb_refl; reflexivity|]. destruct (seqb_spec x u) as [->|_]; [exfalso; apply Q; left; reflexivity|]. f_equal. apply IH. intro Q'. apply Q. right. exact Q'. }
  rewrite (R _ NI). destruct w; reflexivity.
Qed.

(** ** The key: 64 hex digits, nothing else. *)
Theorem C114_key wd text w : dn_ok (set_private_key wd text w) = true <-> wd_publishes wd = true /\ wd_signs wd = true /\ exists b, hex_decode text = Some b /\ length b = 32%nat.
Proof.
  unfold MintModel.set_private_key. destruct (wd_publishes wd); cbn [negb dn_ok]; [|split; [discriminate|intros [Q _]; discriminate]]. destruct (hex_decode text) as [b|]; [|cbn [dn_ok]; split; [discriminate|intros (_ & _ & b & Q & _); discriminate]].
  destruct (Nat.eqb_spec (length b) 32) as [E|E]; cbn [dn_ok]; [|split; [discriminate|intros (_ & _ & b' & Q & Q'); congruence]]. unfold finish_update. destruct (wd_signs wd); cbn [andb dn_ok]; [|split; [discriminate|intros (_ & Q & _); discriminate]]. split; eauto 6.
Qed.
Theorem C114_key_kept wd text w b : dn_ok (set_private_key wd text w) = true -> hex_decode text = Some b -> dn_wallet (set_private_key wd text w) = mkW (wm_event w) (Some (key_of b)) (wm_mints w) /\
  dn_published (set_private_key wd text w) = Some (content (mkW (wm_event w) (Some (key_of b)) (wm_mints w))).
Proof.
  intros H D. apply C114_key in H as (P0 & S0 & b' & D' & L). assert (b' = b) as -> by congruence. unfold MintModel.set_private_key. rewrite P0, D, L. cbn [negb Nat.eqb]. unfold finish_update. rewrite S0. split; reflexivity.
Qed.

(** ** Whatever is done in whatever order, mints are not repeated, and each was there at the start or was asked for. *)
Definition asked (l : list (world * wcall)) : list str := flat_map (fun p => match snd p with CAdd urls => urls | _ => [] end) l.
Lemma remove_mints_in urls : forall mints l ok, remove_mints mints urls = (l, ok) -> incl l mints /\ (NoDup mints -> NoDup l).
Proof.
  assert (RI : forall u l, incl (remove_first u l) l) by (intros u l; induction l as [|x l IH]; cbn [remove_first]; [apply incl_refl|]; destruct (seqb x u); [apply incl_tl, incl_refl|]; intros y [<-|Q]; [left; reflexivity|right; apply IH; exact Q]).
  assert (RN : forall u l, NoDup l -> NoDup (remove_first u l)) by (intros u l ND; rewrite (remove_first_nodup _ _ ND); apply NoDup_filter; exact ND).
  induction urls as [|url r IH]; intros mints l ok H; cbn [remove_mints] in H; [assert (l = mints) as -> by congruence; split; [apply incl_refl|auto]|]. destruct (normalize_http url) as [u nok]. destruct nok; cbn [negb] in H; [|assert (l = mints) as -> by congruence; split; [apply incl_refl|auto]].
  destruct (IH _ _ _ H) as [I0 N0]. split; [eapply incl_tran; [exact I0|apply RI]|]. intro ND. apply N0, RN, ND.
Qed.
Lemma call_mints wd x w : let w' := dn_wallet (call wd x w) in (NoDup (wm_mints w) -> NoDup (wm_mints w')) /\
  (forall m, In m (wm_mints w') -> In m (wm_mints w) \/ exists url, In url (match x with CAdd urls => urls | _ => [] end) /\ names url m).
Proof.
  cbv zeta. destruct x as [urls|urls|text]; cbn [MintModel.call].
  - unfold MintModel.add_mint. destruct (wd_publishes wd); cbn [negb dn_wallet]; [|auto]. destruct (known_ids (wd_keysets wd) (wm_mints w)) as [ids|]; [|auto]. destruct (add_mints (wd_keysets wd) ids (wm_mints w) urls) as [l ok] eqn:A. rewrite finish_wallet. cbn [with_mints wm_mints].
    destruct (add_mints_spec _ _ _ _ _ _ A) as (fresh & us & rest & -> & ND & (dn & ED & AN) & OK & IN & _). split.
    + intro N0. clear -N0 ND IN. assert (D : forall u, In u fresh -> ~ In u (wm_mints w)) by (intros u Q; apply IN in Q; tauto). clear IN. induction (wm_mints w) as [|x l IH]; [exact ND|]. inversion N0 as [|? ? A1 A2]; subst. cbn [app]. apply NoDup_cons.
      * intro Q. apply in_app_iff in Q as [Q|Q]; [exact (A1 Q)|]. apply (D x Q). left. reflexivity.
      * apply IH; [exact A2|]. intros u Q Q'. apply (D u Q). right. exact Q'.
    + intros m Q. apply in_app_iff in Q as [Q|Q]; [auto|]. right. apply IN in Q as [Q _]. rewrite ED. clear -Q AN. induction AN as [|url u dn us N AN IH]; [destruct Q|]. destruct Q as [->|Q]; [exists url; split; [left; reflexivity|exact N]|]. destruct (IH Q) as (url' & I1 & N1). exists url'. split; [right; exact I1|exact N1].
  - unfold MintModel.remove_mint. destruct (wd_publishes wd); cbn [negb dn_wallet]; [|auto]. destruct (remove_mints (wm_mints w) urls) as [l ok] eqn:R. rewrite finish_wallet. cbn [with_mints wm_mints]. destruct (remove_mints_in _ _ _ _ R) as [I0 N0]. split; [exact N0|]. intros m Q. left. apply I0. exact Q.
  - unfold MintModel.set_private_key. destruct (wd_publishes wd); cbn [negb dn_wallet]; [|auto]. destruct (hex_decode text) as [b|]; [|auto]. destruct (Nat.eqb (length b) 32); [rewrite finish_wallet|]; auto.
Qed.
Theorem C114_mints l w out : let w' := fst (calls l w out) in (NoDup (wm_mints w) -> NoDup (wm_mints w')) /\ (forall m, In m (wm_mints w') -> In m (wm_mints w) \/ exists url, In url (asked l) /\ names url m).
Proof.
  revert w out. induction l as [|[wd x] l IH]; intros w out; cbn [MintModel.calls fst asked flat_map]; [auto|]. destruct (call_mints wd x w) as [N1 I1]. destruct (IH (dn_wallet (call wd x w)) (match dn_published (call wd x w) with Some c => c :: out | None => out end)) as [N2 I2]. split; [auto|].
  intros m Q. destruct (I2 m Q) as [Q1|(url & A & B0)]; [|right; exists url; split; [apply in_or_app; right; exact A|exact B0]]. destruct (I1 m Q1) as [Q2|(url & A & B0)]; [auto|]. right. exists url. split; [apply in_or_app; left; exact A|exact B0].
Qed.
(** ** A call that fails publishes nothing; one that works publishes what the wallet then holds, and every other wallet reads just that. *)
Theorem C114_published wd x w : dn_published (call wd x w) = if dn_ok (call wd x w) then Some (content (dn_wallet (call wd x w))) else None.
Proof.
  destruct x as [urls|urls|text]; cbn [MintModel.call].
  - unfold MintModel.add_mint. destruct (wd_publishes wd); cbn [negb]; [|reflexivity]. destruct (known_ids (wd_keysets wd) (wm_mints w)) as [ids|]; [|reflexivity]. destruct (add_mints (wd_keysets wd) ids (wm_mints w) urls) as [l ok]. rewrite finish_published, finish_wallet. reflexivity.
  - unfold MintModel.remove_mint. destruct (wd_publishes wd); cbn [negb]; [|reflexivity]. destruct (remove_mints (wm_mints w) urls) as [l ok]. rewrite finish_published, finish_wallet. reflexivity.
  - unfold MintModel.set_private_key. destruct (wd_publishes wd); cbn [negb]; [|reflexivity]. destruct (hex_decode text) as [b|]; [|reflexivity]. destruct (Nat.eqb (length b) 32); [rewrite finish_published, finish_wallet|]; reflexivity.
Qed.
Lemma call_key wd x w : wm_key (dn_wallet (call wd x w)) = wm_key w \/ exists b, wm_key (dn_wallet (call wd x w)) = Some (key_of b).
Proof.
  destruct x as [urls|urls|text]; cbn [MintModel.call].
  - left. unfold MintModel.add_mint. destruct (wd_publishes wd); cbn [negb]; [|reflexivity]. destruct (known_ids (wd_keysets wd) (wm_mints w)) as [ids|]; [|reflexivity]. destruct (add_mints (wd_keysets wd) ids (wm_mints w) urls) as [l ok]. rewrite finish_wallet. reflexivity.
  - left. unfold MintModel.remove_mint. destruct (wd_publishes wd); cbn [negb]; [|reflexivity]. destruct (remove_mints (wm_mints w) urls) as [l ok]. rewrite finish_wallet. reflexivity.
  - unfold MintModel.set_private_key. destruct (wd_publishes wd); cbn [negb]; [|auto]. destruct (hex_decode text) as [b|]; [|auto]. destruct (Nat.eqb (length b) 32); [rewrite finish_wallet; right; exists b; reflexivity|auto].
Qed.
Lemma calls_app l1 : forall l2 w out, calls (l1 ++ l2) w out = calls l2 (fst (calls l1 w out)) (snd (calls l1 w out)).
Proof. induction l1 as [|[wd x] l1 IH]; intros; cbn [app MintModel.calls fst snd]; [reflexivity|apply IH]. Qed.
Lemma calls_key l : (forall b, key_of (key_of b) = key_of b) -> forall w out, (forall k, wm_key w = Some k -> key_of k = k) -> forall k, wm_key (fst (calls l w out)) = Some k -> key_of k = k.
Proof.
  intros KK. induction l as [|[wd x] l IH]; intros w out H k Q; cbn [MintModel.calls fst] in Q; [exact (H k Q)|]. apply (IH _ _) in Q; [exact Q|]. intros k' Q'. destruct (call_key wd x w) as [E|[b E]]; rewrite E in Q'; [exact (H k' Q')|]. assert (k' = key_of b) as -> by congruence. apply KK.
Qed.
Theorem C114_others_read decrypt json_tags l wd x w out w0 e : codec_laws encrypt decrypt tags_json json_tags -> (forall b, key_of (key_of b) = key_of b) -> (forall k, wm_key w = Some k -> key_of k = k) ->
  let w1 := fst (calls l w out) in let w' := fst (calls (l ++ [(wd, x)]) w out) in
  dn_ok (call wd x w1) = true -> snd (calls (l ++ [(wd, x)]) w out) = content w' :: snd (calls l w out) /\
  (ev_content e = content w' -> ev_tags e = [] -> meta_parse decrypt json_tags key_of w0 e = (mkW (Some e) (match wm_key w' with Some k => Some k | None => wm_key w0 end) (wm_mints w'), true)).
Proof.
  intros CL KK K0 w1 w' OK. assert (E : w' = dn_wallet (call wd x w1)) by (unfold w'; rewrite calls_app; reflexivity). split.
  - rewrite calls_app. cbn [MintModel.calls fst snd]. fold w1. rewrite C114_published, OK, <- E. reflexivity.
  - intros C T. apply (C88_round_trip encrypt decrypt tags_json json_tags); try assumption. unfold w'. apply calls_key; assumption.
Qed.
End Settings.

(** ** Token events: what is written is read, with the mint in its normal form; the id is the event's. *)
Section Token.
Variable token_json : str -> list cproof -> list str -> str.
Variable json_token : str -> option (str * list cproof * list str).
Variable encrypt decrypt : str -> option str.
Variable sign_event : event -> option event.
Definition token_laws : Prop := (forall s c, encrypt s = Some c -> decrypt c = Some s) /\ (forall m ps d, json_token (token_json m ps d) = Some (m, ps, d)) /\
  (forall e e', sign_event e = Some e' -> ev_content e' = ev_content e /\ ev_created_at e' = ev_created_at e /\ ev_kind e' = ev_kind e /\ ev_tags e' = ev_tags e).
Theorem C114_token t e : token_laws -> token_event token_json encrypt sign_event t = Some e -> ev_kind e = 7375 /\ ev_tags e = [] /\
  exists m ok, normalize_http (wt_mint t) = (m, ok) /\ token_parse json_token decrypt e = (mkWT m (wt_proofs t) (wt_deleted t) (wt_minted t) (Some e), true) /\ token_id (fst (token_parse json_token decrypt e)) = ev_id e.
Proof.
  intros (L1 & L2 & L3) H. unfold token_event in H. destruct (encrypt _) as [c|] eqn:EN; [|discriminate]. destruct (L3 _ _ H) as (C & T & K & G). cbn [ev_content ev_created_at ev_kind ev_tags] in *. split; [exact K|]. split; [exact G|].
  destruct (normalize_http (wt_mint t)) as [m ok] eqn:N. exists m, ok. split; [reflexivity|]. unfold token_parse. rewrite C, (L1 _ _ EN), L2, N, T. split; reflexivity.
Qed.
(** It is the same token exactly when the mint was in its normal form; for the mints of C113 that is one step. *)
Theorem C114_token_same t e : token_laws -> token_event token_json encrypt sign_event t = Some e ->
  (fst (token_parse json_token decrypt e) = mkWT (wt_mint t) (wt_proofs t) (wt_deleted t) (wt_minted t) (Some e) <-> fst (normalize_http (wt_mint t)) = wt_mint t).
Proof.
  intros L H. destruct (C114_token t e L H) as (_ & _ & m & ok & N & P0 & _). rewrite P0, N. cbn [fst]. split; [congruence|intros ->; reflexivity].
Qed.
(** What cannot be decrypted or read is an error. *)
Theorem C114_token_errors e : snd (token_parse json_token decrypt e) = true <-> exists plain t, decrypt (ev_content e) = Some plain /\ json_token plain = Some t.
Proof.
  unfold token_parse. destruct (decrypt (ev_content e)) as [plain|]; [|split; [discriminate|intros (p & t & Q & _); discriminate]]. destruct (json_token plain) as [[[m ps] d]|] eqn:J; cbn [snd]; [split; eauto|]. split; [discriminate|]. intros (p & t & Q & Q'). congruence.
Qed.
End Token.

(** ** Signatures on locked proofs and their outputs: they check with the wallet's public key; without a key the program crashes. *)
Section Witness.
Variable c : curve.
Hypothesis L : lawful_curve c.
Variable sha256 tag : str -> str.
Variable nonce : str -> str -> nat -> Z.
Variable tries : nat.
Definition checks (key h text : str) : Prop := exists sg pk sig, text = B "{""signatures"":[""" ++ hex_encode sg ++ B """]}" /\ length sg = 64%nat /\
  schnorr_parse_pk c (skipn 1 (pub_of c key)) = Some pk /\ schnorr_parse_sig c sg = Some sig /\ schnorr_verify c tag sig h pk = true.
Lemma sign_hash_checks key h text : (forall i, nonce key h i mod cv_n c <> 0) -> sign_hash c tag nonce tries (Some key) h = Ok text -> checks key h text.
Proof.
  intros NZ H. unfold sign_hash in H. destruct (schnorr_sign c tag nonce tries key h) as [sg|] eqn:E; [|discriminate]. destruct (C108_signature_checks c L tag nonce tries key h sg NZ E) as (LEN & pk & sig & A1 & A2 & A3). exists sg, pk, sig. split; [unfold witness_json in H; congruence|]. auto.
Qed.
Theorem C114_input_signed key secret text : (forall i, nonce key (sha256 secret) i mod cv_n c <> 0) -> sign_input c sha256 tag nonce tries (Some key) secret = Ok text -> checks key (sha256 secret) text.
Proof. apply sign_hash_checks. Qed.
Theorem C114_output_signed key p text : (forall i, nonce key (sha256 (compressed c p)) i mod cv_n c <> 0) -> sign_output c sha256 tag nonce tries (Some key) (point_text c p) = Ok text -> checks key (sha256 (compressed c p)) text.
Proof. intro NZ. unfold sign_output, point_text. rewrite (hex_prefix_decode _ _ (hex_decode_encode _)). apply sign_hash_checks. exact NZ. Qed.
(** Signing succeeds with a key in range when one of the nonces tried gives a hash below the order. *)
Theorem C114_signs d secret p : 1 <= d < cv_n c -> (forall x, length (sha256 x) = 32%nat) ->
  (forall h s e, exists i, (i < tries)%nat /\ be_val (tag (cv_x c (smul c (nonce s h i) (cv_gen c)) ++ cv_x c (smul c e (cv_gen c)) ++ h)) < cv_n c) ->
  (exists text, sign_input c sha256 tag nonce tries (Some (be_bytes 32 d)) secret = Ok text) /\ (exists text, sign_output c sha256 tag nonce tries (Some (be_bytes 32 d)) (point_text c p) = Ok text).
Proof.
  intros D LS GN. assert (S1 : forall h, length h = 32%nat -> exists text, sign_hash c tag nonce tries (Some (be_bytes 32 d)) h = Ok text).
  { intros h LH. destruct (C108_signs c L tag nonce tries (key_text d) h) with (s := be_bytes 32 d) as [sg E]; [exists d; split; [exact D|reflexivity]|exact LH|exact (GN h)|apply hex_decode_encode|]. unfold sign_hash. rewrite E. eauto. }
  split; [apply S1, LS|]. apply S1. apply LS.
Qed.
(** With a key signing never crashes, whatever the key and the text. *)
Theorem C114_sign_no_crash key text : sign_input c sha256 tag nonce tries (Some key) text <> Panic /\ sign_output c sha256 tag nonce tries (Some key) text <> Panic.
Proof. unfold sign_input, sign_output, sign_hash. split; destruct (schnorr_sign _ _ _ _ _ _); discriminate. Qed.
Theorem C114_no_key_refuted secret : sign_input c sha256 tag nonce tries None secret = Panic /\ sign_output c sha256 tag nonce tries None secret = Panic.
Proof. split; reflexivity. Qed.
End Witness.

(** ** Answers of a mint *)
Theorem C114_active status body k : active_keyset status body = Some k <-> status = 200 /\ exists a b, body = Some (a ++ k :: b) /\ mk_unit k = B "sat" /\ (forall x, In x a -> mk_unit x <> B "sat").
Proof.
  unfold active_keyset, mint_answer. destruct (Z.eqb_spec status 200) as [->|NE]; [|split; [discriminate|intros [Q _]; contradiction]]. destruct body as [l|]; [|split; [discriminate|intros (_ & a & b & Q & _); discriminate]]. split.
  - intro H. split; [reflexivity|]. induction l as [|x l IH]; [discriminate|]. cbn [find] in H. destruct (seqb_spec (mk_unit x) (B "sat")) as [E|E].
    + assert (x = k) as -> by congruence. exists [], l. split; [reflexivity|]. split; [exact E|intros ? []].
    + destruct (IH H) as (a & b & Q & U & F). exists (x :: a), b. assert (l = a ++ k :: b) as -> by congruence. split; [reflexivity|]. split; [exact U|]. intros y [<-|Q']; [exact E|exact (F y Q')].
  - intros (_ & a & b & Q & U & F). assert (l = a ++ k :: b) as -> by congruence. clear Q. induction a as [|x a IH]; cbn [app find]; [rewrite U; reflexivity|]. destruct (seqb_spec (mk_unit x) (B "sat")) as [E|_]; [destruct (F x (or_introl eq_refl) E)|]. apply IH. intros y Q. apply F. right. exact Q.
Qed.
Theorem C114_keyset_by_id status body keys : keyset_by_id status body = Ok keys <-> status = 200 /\ exists k l, body = Some (k :: l) /\ mk_keys k = keys.
Proof.
  unfold keyset_by_id, mint_answer. destruct (Z.eqb_spec status 200) as [->|NE]; [|split; [discriminate|intros [Q _]; contradiction]]. destruct body as [[|k l]|].
  - split; [discriminate|]. intros (_ & k & l & Q & _). discriminate.
  - split; [intro Q; split; [reflexivity|]; exists k, l; split; [reflexivity|congruence]|]. intros (_ & k' & l' & Q & <-). congruence.
  - split; [discriminate|]. intros (_ & k & l & Q & _). discriminate.
Qed.
(** A token that was not published has no id but a fixed text. *)
Theorem C114_token_id t : token_id t = match wt_event t with Some e => ev_id e | None => B "<not-published>" end.
Proof. destruct t as [? ? ? ? [e|]]; reflexivity. Qed.
(** False: a mint cannot crash the wallet; an answer without keysets does. *)
Theorem C114_keyset_by_id_refuted status body : keyset_by_id status body = Panic <-> status = 200 /\ body = Some [].
Proof. unfold keyset_by_id, mint_answer. destruct (Z.eqb_spec status 200) as [->|NE]; [|split; [discriminate|intros [Q _]; contradiction]]. destruct body as [[|k l]|]; split; try discriminate; auto; intros [_ Q]; discriminate. Qed.

(** ** Cases *)
Definition demo_collides (ids : list str) (x : str) : bool := smem x ids.
Definition key32 (n : Z) (b : str) : str := be_bytes 32 (be_val (firstn 32 b) mod n).
Definition demo_key : str -> str := key32 secp_n.
Lemma demo_key_twice b : demo_key (demo_key b) = demo_key b.
Proof.
  unfold demo_key, key32. rewrite firstn_all2 by (rewrite be_bytes_length; lia). rewrite be_val_bytes; [rewrite Z.mod_mod by discriminate; reflexivity|]. pose proof (Z.mod_pos_bound (be_val (firstn 32 b)) secp_n eq_refl). assert (secp_n < 256 ^ Z.of_nat 32) by reflexivity. lia.
Qed.
Definition no_cipher (s : str) : str := s.
Definition tag_text (t : tag) : str := flat_map (fun s => s ++ [byte_of 0]) t ++ [byte_of 1].
Definition demo_json (ts : list tag) : str := byte_of 2 :: flat_map tag_text ts.
(** each mint has one keyset, named after it; the second is away *)
Definition demo_world : world := mkWorld true true (fun m => if seqb m (B "https://away.example") then None else Some [m]).
(** all urls lead to one mint *)
Definition one_mint : world := mkWorld true true (fun _ => Some [B "00ab"]).
Definition wallet (l : list str) : wmeta := mkW None None l.
Definition demo_add := add_mint demo_collides no_cipher demo_json.
Definition demo_remove := remove_mint no_cipher demo_json.
Example C114_add_example : let d := demo_add demo_world [B " https://b.example:443/ "; B "c.example"; B "https://b.example"] (wallet [B "https://a.example"]) in
  dn_ok d = true /\ wm_mints (dn_wallet d) = [B "https://a.example"; B "https://b.example"; B "https://c.example"].
Proof. vm_compute. split; reflexivity. Qed.
Example C114_remove_example : let d := demo_remove demo_world [B "a.example/"; B "https://x.example"] (wallet [B "https://a.example"; B "https://b.example"]) in dn_ok d = true /\ wm_mints (dn_wallet d) = [B "https://b.example"].
Proof. vm_compute. split; reflexivity. Qed.
Example C114_law_example : forall ids x, demo_collides ids x = smem x ids.
Proof. reflexivity. Qed.
Example C114_others_read_example : exists w', calls demo_collides demo_key no_cipher demo_json [(demo_world, CAdd [B "a.example"]); (demo_world, CKey (repeat "1"%char 64)); (demo_world, CRemove [B "b.example"])] (wallet []) [] =
  (w', [meta_content no_cipher demo_json w'; meta_content no_cipher demo_json w'; meta_content no_cipher demo_json (wallet [B "https://a.example"])]) /\ wm_key w' = Some (repeat (byte_of 17) 32) /\ wm_mints w' = [B "https://a.example"].
Proof. exists (mkW None (Some (repeat (byte_of 17) 32)) [B "https://a.example"]). split; [vm_compute; reflexivity|]. split; vm_compute; reflexivity. Qed.

(** False: a call that fails leaves the wallet as it was: the mints before the one that failed stay, and nobody is told. *)
Theorem C114_atomic_refuted : exists w urls, let d := demo_add demo_world urls w in dn_ok d = false /\ dn_published d = None /\ dn_wallet d <> w /\ wm_mints (dn_wallet d) = [B "https://a.example"].
Proof. exists (wallet []), [B "a.example"; B "away.example"]. vm_compute. repeat split. discriminate. Qed.
(** A normal form begins with a small letter or at least not with a capital one. *)
Lemma parsed_scheme s h : url_parse s = Some h -> (fst (cut_or "#"%char s) = B "*" /\ hu_scheme h = []) \/ exists sc rest, get_scheme (fst (cut_or "#"%char s)) = Some (sc, rest) /\ hu_scheme h = map lower sc.
Proof.
  unfold url_parse. destruct (cut_or "#"%char s) as [u frag]. cbn [fst]. destruct (parse_before_fragment u) as [h0|] eqn:P0; [|discriminate]. destruct (set_text MFragment frag) as [[f raw]|]; [|discriminate]. intro H. assert (E : hu_scheme h = hu_scheme h0) by (injection H as <-; reflexivity). rewrite E. clear H E.
  unfold parse_before_fragment in P0. destruct (existsb is_ctl u); [discriminate|]. destruct (seqb_spec u (B "*")) as [->|_]; [left; injection P0 as <-; split; reflexivity|right]. destruct (get_scheme u) as [[sc rest0]|]; [|discriminate]. exists sc, rest0. split; [reflexivity|]. revert P0. cbv zeta.
  destruct (if last_is "?"%char rest0 && (length (filter (ceqb "?"%char) rest0) =? 1)%nat then (removelast rest0, []) else cut_or "?"%char rest0) as [rest query]. destruct (negb (has_prefix rest (B "/")) && _); [intro P0; injection P0 as <-; reflexivity|]. destruct (_ && existsb (ceqb ":"%char) _); [discriminate|].
  match goal with |- (let '(_, _) := ?x in _) = _ -> _ => destruct x as [authority path] end. destruct (parse_host authority); [|discriminate]. destruct (set_text MPath path) as [[p1 raw1]|]; [|discriminate]. intro P0. injection P0 as <-. reflexivity.
Qed.
Lemma finish_head h a r : hu_scheme h = a :: r -> exists t, finish h = a :: t.
Proof.
  intro E. unfold finish. set (t := url_string _). assert (T : exists t', t = a :: r ++ ":"%char :: t').
  { unfold t, url_string. cbn [hu_scheme hu_opaque]. rewrite E. cbn [nonempty]. destruct (nonempty (hu_opaque h)).
    - eexists. rewrite <- !app_assoc. cbn [app]. reflexivity.
    - eexists. cbn [orb]. rewrite <- !app_assoc. cbn [app]. reflexivity. }
  destruct T as (t' & ->). unfold trim_suffix_of. destruct (has_suffix _ _); [|eauto]. exists (firstn (length (r ++ ":"%char :: t') - 1) (r ++ ":"%char :: t')). cbn [length]. change (length (B "/")) with 1%nat. rewrite app_length. cbn [length]. replace (S (length r + S (length t')) - 1)%nat with (S (length r + S (length t') - 1))%nat by lia. reflexivity.
Qed.
Lemma normal_head s r : normalize_http s = (r, true) -> exists c t, r = lower c :: t.
Proof.
  unfold normalize_http. set (x := if has_prefix (trim_space s) (B "http") then trim_space s else B "https://" ++ trim_space s). clearbody x. destruct (url_parse x) as [h|] eqn:U; [|discriminate]. destruct (hu_scheme h) as [|a q] eqn:SC.
  - destruct (url_parse (B "http://" ++ x)) as [h'|] eqn:U'; [|discriminate]. intro Q. assert (r = finish h') as -> by congruence. apply parsed_scheme in U'.
    assert (CU : exists u, fst (cut_or "#"%char (B "http://" ++ x)) = B "http://" ++ u). { unfold cut_or. destruct (cut_sep "#"%char x) as [[a b]|] eqn:CS.
      - exists a. assert (CQ : cut_sep "#"%char (B "http://" ++ x) = Some (B "http://" ++ a, b)) by (simpl; rewrite CS; reflexivity). rewrite CQ. reflexivity.
      - exists x. assert (CQ : cut_sep "#"%char (B "http://" ++ x) = None) by (simpl; rewrite CS; reflexivity). rewrite CQ. reflexivity. }
    destruct CU as [u CU]. rewrite CU in U'. destruct U' as [[U' _]|(sc & rest & G & E)]; [discriminate|]. change (get_scheme (B "http://" ++ u)) with (Some (B "http", B "//" ++ u)) in G. assert (sc = B "http") as -> by congruence. destruct (finish_head h' "h"%char (B "ttp") E) as [t ->]. exists "h"%char, t. reflexivity.
  - intro Q. assert (r = finish h) as -> by congruence. apply parsed_scheme in U as [[_ U]|(sc & rest & G & E)].
    + congruence.
    + rewrite E in SC. destruct sc as [|c sc]; [discriminate|]. cbn [map] in SC. destruct (finish_head h (lower c) (map lower sc) E) as [t ->]. eauto.
Qed.
(** False: after removing a mint without an error it is gone. A wallet event may name a mint twice, or in a form that is not the normal one: such a mint
    may be beyond the reach of RemoveMint, whatever it is called with. *)
Theorem C114_removed_refuted : (exists m, dn_ok (demo_remove demo_world [m] (wallet [m])) = true /\ forall wd urls, wm_mints (dn_wallet (demo_remove wd urls (wallet [m]))) = [m]) /\
  (exists m, let d := demo_remove demo_world [m] (wallet [m; m]) in dn_ok d = true /\ In m (wm_mints (dn_wallet d))).
Proof.
  split; [|exists (B "https://a.example"); vm_compute; auto]. exists (B "HTTPS://a.example"). split; [vm_compute; reflexivity|]. intros wd urls. unfold demo_remove, remove_mint. destruct (wd_publishes wd); cbn [negb]; [|reflexivity].
  destruct (remove_mints (wm_mints (wallet [B "HTTPS://a.example"])) urls) as [l ok] eqn:R. rewrite finish_wallet. cbn [with_mints wm_mints]. cbn [wallet wm_mints] in R. revert l ok R. induction urls as [|url r IH]; intros l ok R; cbn [remove_mints] in R; [congruence|].
  destruct (normalize_http url) as [u nok] eqn:N. destruct nok; cbn [negb] in R; [|congruence]. apply (IH l ok). rewrite <- R. f_equal. symmetry. cbn [remove_first]. destruct (seqb_spec (B "HTTPS://a.example") u) as [E|_]; [|reflexivity]. exfalso.
  destruct (normal_head _ _ N) as (c & t & E'). rewrite <- E in E'. assert (H : lower c = "H"%char) by (injection E' as Q _; symmetry; exact Q). assert (G : forall c, negb (ceqb (lower c) "H"%char) = true) by (apply bytes_forallb; vm_compute; reflexivity). specialize (G c). rewrite H in G. vm_compute in G. discriminate.
Qed.
(** False: adding a mint that is in the list already changes nothing and gives no error. When the list has it in another form, its own keysets are found to collide. *)
Theorem C114_again_refuted : exists m, dn_ok (demo_add one_mint [m] (wallet [m])) = false /\ dn_ok (demo_add one_mint [m] (wallet [])) = true.
Proof. exists (B "https://a.example/"). vm_compute. split; reflexivity. Qed.
(** False: a key that is set can sign. 64 zeros are taken for a key. *)
Theorem C114_zero_key_refuted c key_of encrypt tags_json : lawful_curve c -> (forall b, key_of b = be_bytes 32 (scalar c b)) -> exists text, forall wd w, wd_publishes wd = true -> wd_signs wd = true ->
  let d := set_private_key key_of encrypt tags_json wd text w in dn_ok d = true /\ exists k, wm_key (dn_wallet d) = Some k /\ forall tag nonce tries h, schnorr_sign c tag nonce tries k h = None.
Proof.
  intros L KO. exists (repeat "0"%char 64). intros wd w P0 S0 d. assert (DC : hex_decode (repeat "0"%char 64) = Some (repeat (byte_of 0) 32)) by (vm_compute; reflexivity).
  assert (OK : dn_ok d = true) by (unfold d; apply C114_key; split; [exact P0|]; split; [exact S0|]; eexists; split; [exact DC|reflexivity]). split; [exact OK|].
  destruct (C114_key_kept _ _ _ _ _ _ _ OK DC) as [E _]. unfold d. rewrite E. cbn [wm_key]. eexists. split; [reflexivity|]. intros. apply C108_no_zero_signature. rewrite KO. unfold scalar. pose proof (g_n c L) as N.
  replace (be_val (firstn 32 (repeat (byte_of 0) 32))) with 0 by (vm_compute; reflexivity). rewrite Z.mod_0_l by lia. replace (be_val (firstn 32 (be_bytes 32 0))) with 0 by (vm_compute; reflexivity). reflexivity.
Qed.
(** False: a wallet only ever holds keys of 32 bytes that were given in full: an event with a shorter key is accepted, SetPrivateKey refuses it. *)
Theorem C114_short_key_refuted : exists e text w b, hex_decode text = Some b /\ meta_parse (fun s => Some s) (fun _ => Some [[B "privkey"; text]]) demo_key (wallet []) e = (w, true) /\ wm_key w = Some (demo_key b) /\
  dn_ok (set_private_key demo_key no_cipher demo_json demo_world text (wallet [])) = false.
Proof. exists (mkEvent [] [] 0 17375 [] (B "x") []), (B "01"). do 2 eexists. repeat split; vm_compute; reflexivity. Qed.
(** False: two devices of one wallet end up with the same mints. Each adds one, each reads the other's event: each has what the other added, and not its own. *)
Theorem C114_two_devices_refuted : exists a b ea eb, let da := demo_add demo_world [a] (wallet []) in let db := demo_add demo_world [b] (wallet []) in
  dn_published da = Some (ev_content ea) /\ dn_published db = Some (ev_content eb) /\ forall decrypt json_tags, codec_laws no_cipher decrypt demo_json json_tags ->
  wm_mints (meta_event decrypt json_tags demo_key (dn_wallet da) eb) = [B "https://b.example"] /\ wm_mints (meta_event decrypt json_tags demo_key (dn_wallet db) ea) = [B "https://a.example"].
Proof.
  exists (B "a.example"), (B "b.example"), (mkEvent [] [] 1 17375 [] (meta_content no_cipher demo_json (wallet [B "https://a.example"])) []), (mkEvent [] [] 1 17375 [] (meta_content no_cipher demo_json (wallet [B "https://b.example"])) []).
  cbv zeta. split; [vm_compute; reflexivity|]. split; [vm_compute; reflexivity|]. intros decrypt json_tags CL. rewrite !C88_last_read_stands. split.
  - erewrite (C88_round_trip no_cipher decrypt demo_json json_tags demo_key (wallet [B "https://b.example"])); [reflexivity|exact CL|reflexivity|reflexivity|discriminate].
  - erewrite (C88_round_trip no_cipher decrypt demo_json json_tags demo_key (wallet [B "https://a.example"])); [reflexivity|exact CL|reflexivity|reflexivity|discriminate].
Qed.
(** False: a token that is saved is read back as it was. The mint given to WithMintDestination is not brought into normal form, what is read is. *)
Theorem C114_token_refuted : exists t e, token_event (fun m _ _ => m) (fun s => Some s) (fun e => Some e) t = Some e /\ wt_mint (fst (token_parse (fun m => Some (m, [], [])) (fun s => Some s) e)) <> wt_mint t.
Proof. exists (mkWT (B "https://a.example/") [] [] 7 None). eexists. split; [reflexivity|]. vm_compute. discriminate. Qed.
Example C114_token_example : exists e, token_event (fun m _ _ => m) (fun s => Some s) (fun e => Some e) (mkWT (B "https://a.example") [] [] 7 None) = Some e /\
  token_parse (fun m => Some (m, [], [])) (fun s => Some s) e = (mkWT (B "https://a.example") [] [] 7 (Some e), true) /\ token_id (mkWT [] [] [] 0 None) = B "<not-published>".
Proof. eexists. split; [reflexivity|]. split; vm_compute; reflexivity. Qed.
Example C114_witness_example : exists text, sign_input tiny_curve (fun _ => repeat (byte_of 3) 32) demo_tag (fun _ _ _ => 5) 1 (Some (be_bytes 32 9)) (B "secret") = Ok text /\ (length text = 147)%nat.
Proof. eexists. split; [vm_compute; reflexivity|vm_compute; reflexivity]. Qed.
Example C114_active_example : active_keyset 200 (Some [mkKeys (B "1") (B "usd") []; mkKeys (B "2") (B "sat") []]) = Some (mkKeys (B "2") (B "sat") []) /\ active_keyset 404 (Some [mkKeys (B "2") (B "sat") []]) = None.
Proof. split; reflexivity. Qed.

Print Assumptions C114_add.
Print Assumptions C114_keysets_apart.
Print Assumptions C114_add_works.
Print Assumptions C114_dead_mint_refuted.
Print Assumptions C114_remove.
Print Assumptions C114_removed.
Print Assumptions C114_cancel.
Print Assumptions C114_key.
Print Assumptions C114_key_kept.
Print Assumptions C114_mints.
Print Assumptions C114_published.
Print Assumptions C114_others_read.
Print Assumptions C114_token.
Print Assumptions C114_token_same.
Print Assumptions C114_token_errors.
Print Assumptions C114_input_signed.
Print Assumptions C114_output_signed.
Print Assumptions C114_no_key_refuted.
Print Assumptions C114_active.
Print Assumptions C114_keyset_by_id_refuted.
Print Assumptions C114_keyset_by_id.
Print Assumptions C114_token_id.
Print Assumptions C114_atomic_refuted.
Print Assumptions C114_removed_refuted.
Print Assumptions C114_again_refuted.
Print Assumptions C114_zero_key_refuted.
Print Assumptions C114_short_key_refuted.
Print Assumptions C114_two_devices_refuted.
Print Assumptions C114_token_refuted.

Print Assumptions C114_signs.

Print Assumptions C114_sign_no_crash.
