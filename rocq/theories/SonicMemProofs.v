(** The sonic message parser's arrays: every message is read right, whatever the arrays held before; and if the parser kept
    its positions, no message would disturb an earlier one. *)
From Verif Require Import Base JsonSpec EventModel TagsModel FilterModel JLexModel EnvelopeModel SonicModel SonicProofs.
Local Open Scope nat_scope.

(** ** One arena. The ghost g holds the cells of the finished slices. *)
Section ArenaFacts.
Context {T : Type}.
Notation cells := (nat -> nat -> option T).
Definition gle (g g' : cells) : Prop := forall b i v, g b i = Some v -> g' b i = Some v.
Definition agree (g : cells) (a : arena T) : Prop := gle g (ar_cell a).
Definition beyond (g : cells) (b i : nat) : Prop := forall k, i <= k -> g b k = None.
(** No finished slice reaches into the free part of the array, nor behind the start of the slice that is being built. *)
Definition clean (g : cells) (a : arena T) (o : option (slice * list T)) : Prop :=
  (forall b i, ar_next a <= b -> g b i = None) /\ sl_buf (ar_free a) < ar_next a /\ sl_len (ar_free a) = 0 /\
  beyond g (sl_buf (ar_free a)) (sl_off (ar_free a)) /\
  match o with
  | None => True
  | Some (s, l) => sl_buf s < ar_next a /\ beyond g (sl_buf s) (sl_off s) /\ length l = sl_len s /\
      (forall k v, nth_error l k = Some v -> ar_cell a (sl_buf s) (sl_off s + k) = Some v) /\
      (sl_buf s = sl_buf (ar_free a) -> sl_off s = sl_off (ar_free a))
  end.
(** The finished slice holds the list. *)
Definition rd (g : cells) (s : slice) (l : list T) : Prop :=
  length l = sl_len s /\ forall k v, nth_error l k = Some v -> g (sl_buf s) (sl_off s + k) = Some v.

Lemma gle_refl g : gle g g. Proof. intros b i v H; exact H. Qed.
Lemma gle_trans g1 g2 g3 : gle g1 g2 -> gle g2 g3 -> gle g1 g3.
Proof. intros H1 H2 b i v H. apply H2, H1, H. Qed.
Lemma rd_mono g g' s l : gle g g' -> rd g s l -> rd g' s l.
Proof. intros H [H1 H2]. split; [exact H1|]. intros k v E. apply H, H2, E. Qed.

Lemma clean_start g a : clean g a None -> clean g a (Some (ar_free a, [])).
Proof.
  intros (H1 & H2 & H3 & H4 & _). repeat split; try assumption.
  - symmetry; exact H3.
  - intros k v. destruct k; discriminate.
Qed.

Lemma clean_app g a s l v s' a' : clean g a (Some (s, l)) -> agree g a -> a_app (Some s) v a = (s', a') ->
  agree g a' /\ clean g a' (Some (s', l ++ [v])) /\ ar_next a <= ar_next a'.
Proof.
  intros (H1 & H2 & H3 & H4 & H5 & H6 & H7 & H8 & H9) HA. cbn [a_app].
  destruct (Nat.ltb (sl_len s) (a_cap a s)).
  - intro E. assert (s' = mkSl (sl_buf s) (sl_off s) (S (sl_len s))) as -> by congruence.
    assert (a' = a_write (sl_buf s) (sl_off s + sl_len s) v a) as -> by congruence. clear E. split; [|split; [|apply le_n]].
    + intros b i w E. unfold a_write. cbn [ar_cell]. destruct (Nat.eqb_spec b (sl_buf s)) as [->|]; [|apply HA, E].
      destruct (Nat.eqb_spec i (sl_off s + sl_len s)) as [->|]; [|apply HA, E]. rewrite H6 in E by lia. discriminate.
    + unfold clean, a_write. cbn [ar_next ar_free ar_size ar_cell sl_buf sl_off sl_len]. repeat split; try assumption.
      * rewrite app_length, H7. cbn. lia.
      * intros k w E. rewrite Nat.eqb_refl. cbn [andb]. destruct (Nat.lt_ge_cases k (length l)) as [Hk|Hk].
        -- rewrite nth_error_app1 in E by exact Hk. destruct (Nat.eqb_spec (sl_off s + k) (sl_off s + sl_len s)); [lia|]. apply H8, E.
        -- rewrite nth_error_app2 in E by exact Hk. destruct (k - length l) as [|q] eqn:EK; [|destruct q; discriminate]. cbn in E.
           replace k with (sl_len s) by lia. rewrite Nat.eqb_refl. exact E.
  - cbn [a_make fst snd sl_buf]. intro E.
    match type of E with (?x, ?y) = _ => assert (s' = x) as -> by congruence; assert (a' = y) as -> by congruence end. clear E.
    split; [|split; [|cbn; lia]].
    + intros b i w E. unfold a_write, a_copy. cbn [ar_cell ar_next sl_len]. destruct (Nat.eqb_spec b (ar_next a)) as [->|].
      * rewrite H1 in E by lia. discriminate.
      * apply HA, E.
    + unfold clean, a_write, a_copy. cbn [ar_next ar_free ar_size ar_cell sl_buf sl_off sl_len]. repeat split.
      * intros b i Hb. apply H1. lia.
      * lia.
      * exact H3.
      * exact H4.
      * lia.
      * intros k _. apply H1. lia.
      * rewrite app_length, H7. cbn. lia.
      * intros k w E. cbn [Nat.add]. rewrite Nat.eqb_refl. cbn [andb]. destruct (Nat.lt_ge_cases k (length l)) as [Hk|Hk].
        -- rewrite nth_error_app1 in E by exact Hk. destruct (Nat.eqb_spec k (sl_len s)); [lia|]. destruct (Nat.ltb_spec k (sl_len s)); [|lia]. apply H8, E.
        -- rewrite nth_error_app2 in E by exact Hk. destruct (k - length l) as [|q] eqn:EK; [|destruct q; discriminate]. cbn in E.
           replace k with (sl_len s) by lia. rewrite Nat.eqb_refl. exact E.
      * intro E. lia.
Qed.

Lemma clean_fresh g a least full : clean g a None -> agree g a ->
  let a' := if Nat.ltb (a_cap a (ar_free a)) least then let '(s, a2) := a_make full a in a_set_free s a2 else a in
  clean g a' None /\ agree g a' /\ ar_next a <= ar_next a'.
Proof.
  intros (H1 & H2 & H3 & H4 & _) HA a'. subst a'. destruct (Nat.ltb _ _); [|repeat split; try assumption; apply le_n].
  cbn [a_make]. unfold clean, a_set_free. cbn [ar_next ar_free ar_size ar_cell sl_buf sl_off sl_len]. repeat split.
  - intros b i Hb. apply H1. lia.
  - lia.
  - intros k _. apply H1. lia.
  - exact HA.
  - lia.
Qed.

(** A slice that is finished becomes part of the ghost. *)
Definition settle (g : cells) (s : slice) (l : list T) : cells :=
  fun b i => if Nat.eqb b (sl_buf s) && Nat.leb (sl_off s) i && Nat.ltb i (sl_off s + sl_len s) then nth_error l (i - sl_off s) else g b i.

Lemma clean_done g a s l least full : clean g a (Some (s, l)) -> agree g a ->
  let a' := a_done least full (Some s) a in
  gle g (settle g s l) /\ agree (settle g s l) a' /\ clean (settle g s l) a' None /\ rd (settle g s l) s l /\ ar_next a <= ar_next a'.
Proof.
  intros (H1 & H2 & H3 & H4 & H5 & H6 & H7 & H8 & H9) HA. cbv zeta.
  assert (L : gle g (settle g s l)).
  { intros b i w E. unfold settle. destruct (Nat.eqb_spec b (sl_buf s)) as [->|]; [|exact E].
    destruct (Nat.leb_spec (sl_off s) i); [|exact E]. rewrite H6 in E by assumption. discriminate. }
  assert (A1 : agree (settle g s l) a).
  { intros b i w. unfold settle. destruct (Nat.eqb_spec b (sl_buf s)) as [->|]; [|apply HA]. destruct (Nat.leb_spec (sl_off s) i) as [Hi|]; [|apply HA].
    destruct (Nat.ltb_spec i (sl_off s + sl_len s)); [|apply HA]. cbn [andb]. intro E. replace i with (sl_off s + (i - sl_off s)) by lia. apply H8, E. }
  assert (R : rd (settle g s l) s l).
  { split; [exact H7|]. intros k v E. unfold settle. rewrite Nat.eqb_refl. assert (k < length l) by (apply nth_error_Some; congruence).
    destruct (Nat.leb_spec (sl_off s) (sl_off s + k)); [|lia]. destruct (Nat.ltb_spec (sl_off s + k) (sl_off s + sl_len s)); [|lia].
    cbn [andb]. replace (sl_off s + k - sl_off s) with k by lia. exact E. }
  assert (N : forall b i, ar_next a <= b -> settle g s l b i = None).
  { intros b i Hb. unfold settle. destruct (Nat.eqb_spec b (sl_buf s)); [lia|]. apply H1, Hb. }
  set (a1 := if Nat.eqb (sl_buf s) (sl_buf (ar_free a)) && Nat.eqb (sl_off s) (sl_off (ar_free a)) then a_set_free (mkSl (sl_buf s) (sl_off s + sl_len s) 0) a else a).
  assert (C : clean (settle g s l) a1 None /\ agree (settle g s l) a1 /\ ar_next a1 = ar_next a).
  { unfold a1. destruct (Nat.eqb_spec (sl_buf s) (sl_buf (ar_free a))) as [E|E].
    - rewrite (H9 E), Nat.eqb_refl. cbn [andb]. unfold clean, a_set_free. cbn [ar_next ar_free ar_size ar_cell sl_buf sl_off sl_len]. repeat split; try assumption.
      intros k Hk. unfold settle. rewrite Nat.eqb_refl. destruct (Nat.ltb_spec k (sl_off s + sl_len s)) as [|G]; [rewrite (H9 E) in *; lia|].
      rewrite andb_false_r. apply H6. rewrite (H9 E). lia.
    - cbn [andb]. unfold clean. repeat split; try assumption. intros k Hk. unfold settle. destruct (Nat.eqb_spec (sl_buf (ar_free a)) (sl_buf s)); [congruence|].
      apply H4, Hk. }
  destruct C as (C1 & C2 & C3). pose proof (clean_fresh _ _ least full C1 C2) as (F1 & F2 & F3).
  unfold a_done. fold a1. refine (conj L (conj F2 (conj F1 (conj R _)))). rewrite <- C3. exact F3.
Qed.

Lemma clean_done_none g a o least full : clean g a None -> agree g a ->
  clean g (a_done least full o a) None /\ agree g (a_done least full o a) /\ ar_next a <= ar_next (a_done least full o a).
Proof.
  intros H HA. unfold a_done.
  set (a1 := match o with Some s => _ | None => a end).
  assert (C : clean g a1 None /\ agree g a1 /\ ar_next a1 = ar_next a).
  { unfold a1. destruct o as [s|]; [|repeat split; try assumption; apply H]. destruct (Nat.eqb_spec (sl_buf s) (sl_buf (ar_free a))) as [E|E]; [|repeat split; try assumption; apply H].
    destruct (Nat.eqb_spec (sl_off s) (sl_off (ar_free a))) as [E2|E2]; [|repeat split; try assumption; apply H]. cbn [andb].
    destruct H as (H1 & H2 & H3 & H4 & _). unfold clean, a_set_free. cbn [ar_next ar_free ar_size ar_cell sl_buf sl_off sl_len]. repeat split; try assumption.
    - rewrite E. exact H2.
    - intros k Hk. rewrite E. apply H4. lia. }
  destruct C as (C1 & C2 & C3). pose proof (clean_fresh _ _ least full C1 C2) as (F1 & F2 & F3).
  refine (conj F1 (conj F2 _)). rewrite <- C3. exact F3.
Qed.

(** What the slice holds, read from memory *)
Lemma rd_read g a d s l : agree g a -> rd g s l -> a_read d a s = l.
Proof.
  intros HA [H1 H2]. unfold a_read. rewrite <- H1. clear H1.
  assert (G : forall l k0, (forall k v, nth_error l k = Some v -> g (sl_buf s) (sl_off s + (k0 + k)) = Some v) ->
    map (fun i => match ar_cell a (sl_buf s) (sl_off s + i) with Some v => v | None => d end) (seq k0 (length l)) = l).
  { clear -HA. induction l as [|x l IH]; intros k0 H; [reflexivity|]. cbn [length seq map]. f_equal.
    - specialize (H 0 x eq_refl). rewrite Nat.add_0_r in H. rewrite (HA _ _ _ H). reflexivity.
    - apply IH. intros k v E. specialize (H (S k) v E). replace (S k0 + k) with (k0 + S k) by lia. exact H. }
  apply G. exact H2.
Qed.
End ArenaFacts.

(** ** The visitor with arrays and the visitor with lists *)
Record ghost := mkGh { gh_s : nat -> nat -> option str; gh_t : nat -> nat -> option slice; gh_i : nat -> nat -> option Z }.
Definition ghle (G G' : ghost) : Prop := gle (gh_s G) (gh_s G') /\ gle (gh_t G) (gh_t G') /\ gle (gh_i G) (gh_i G').
Lemma ghle_refl G : ghle G G. Proof. repeat split; apply gle_refl. Qed.
Lemma ghle_trans G1 G2 G3 : ghle G1 G2 -> ghle G2 G3 -> ghle G1 G3.
Proof. intros (A & D & C) (A' & D' & C'). repeat split; eapply gle_trans; eassumption. Qed.
Definition newer (m m' : smem) : Prop :=
  ar_next (m_str m) <= ar_next (m_str m') /\ ar_next (m_tag m) <= ar_next (m_tag m') /\ ar_next (m_int m) <= ar_next (m_int m').
Lemma newer_refl m : newer m m. Proof. repeat split; apply le_n. Qed.
Lemma newer_trans m1 m2 m3 : newer m1 m2 -> newer m2 m3 -> newer m1 m3.
Proof. unfold newer. intuition lia. Qed.

Definition ropt {A C} (R : A -> C -> Prop) (o : option A) (o' : option C) : Prop :=
  match o, o' with Some x, Some y => R x y | None, None => True | _, _ => False end.
(** A slot whose slice is still being built is described apart. *)
Definition rslot {A C} (building : bool) (R : A -> C -> Prop) (o : option A) (o' : option C) : Prop := if building then True else ropt R o o'.
Definition rds (G : ghost) := rd (gh_s G).
Definition rdi (G : ghost) := rd (gh_i G).
Definition rdt (G : ghost) (s : slice) (l : list (list str)) : Prop := exists cs, rd (gh_t G) s cs /\ Forall2 (rds G) cs l.
Definition rev_ (G : ghost) (bt : bool) (g : gev slice) (g' : pgev) : Prop :=
  g_id g = g_id g' /\ g_pk g = g_pk g' /\ g_ts g = g_ts g' /\ g_kind g = g_kind g' /\ g_content g = g_content g' /\ g_sig g = g_sig g' /\
  rslot bt (rdt G) (g_tags g) (g_tags g').
Definition rtag (G : ghost) (a : str * option slice) (a' : str * option (list str)) : Prop := fst a = fst a' /\ ropt (rds G) (snd a) (snd a').
Definition rflt (G : ghost) (bi bk ba : bool) (f : gflt slice slice) (f' : pgflt) : Prop :=
  rslot bi (rds G) (gf_ids f) (gf_ids f') /\ rslot bk (rdi G) (gf_kinds f) (gf_kinds f') /\ rslot ba (rds G) (gf_authors f) (gf_authors f') /\
  Forall2 (rtag G) (gf_tags f) (gf_tags f') /\
  gf_since f = gf_since f' /\ gf_until f = gf_until f' /\ gf_limit f = gf_limit f' /\ gf_search f = gf_search f' /\ gf_limit_zero f = gf_limit_zero f'.
Definition renv (G : ghost) (x : henv) (y : genv (list str) (list (list str)) (list Z)) : Prop :=
  match x, y with
  | XNone, XNone => True
  | XEvent s e, XEvent s' e' => s = s' /\ rev_ G false e e'
  | XReq s fs, XReq s' fs' => s = s' /\ Forall2 (rflt G false false false) fs fs'
  | XOk a b c, XOk a' b' c' => a = a' /\ b = b' /\ c = c'
  | XEose a, XEose a' => a = a'
  | XCount s f n h, XCount s' f' n' h' => s = s' /\ rflt G false false false f f' /\ n = n' /\ h = h'
  | XAuth c e, XAuth c' e' => c = c' /\ rev_ G false e e'
  | XClose a, XClose a' => a = a'
  | XClosed a b, XClosed a' b' => a = a' /\ b = b'
  | XNotice a, XNotice a' => a = a'
  | _, _ => False
  end.
Definition rmain (G : ghost) (x : gmain slice slice slice) (y : gmain (list str) (list (list str)) (list Z)) : Prop :=
  match x, y with MNone, MNone => True | MRef, MRef => True | MCopy a, MCopy b => renv G a b | _, _ => False end.

Definition in_tags (p : spos) : bool := match p with PTagsList | PAnEventTag => true | _ => false end.
Definition in_tag (p : spos) : bool := match p with PAnEventTag => true | _ => false end.
Definition in_ids (p : spos) : bool := match p with PIds => true | _ => false end.
Definition in_authors (p : spos) : bool := match p with PAuthors => true | _ => false end.
Definition in_kinds (p : spos) : bool := match p with PKinds => true | _ => false end.
Definition in_ftag (p : spos) : bool := match p with PAFilterTag => true | _ => false end.

Definition building {A} (g : nat -> nat -> option A) (a : arena A) (o : option slice) (o' : option (list A)) : Prop :=
  match o, o' with Some s, Some l => clean g a (Some (s, l)) | _, _ => False end.
Definition open_s (G : ghost) (a : arena str) (p : spos) (t : option slice) (t' : option (list str)) (f : option (gflt slice slice)) (f' : option pgflt)
  (ft : option slice) (ft' : option (list str)) : Prop :=
  match p with
  | PAnEventTag => building (gh_s G) a t t'
  | PAFilterTag => building (gh_s G) a ft ft'
  | PIds => match f, f' with Some f, Some f' => building (gh_s G) a (gf_ids f) (gf_ids f') | _, _ => False end
  | PAuthors => match f, f' with Some f, Some f' => building (gh_s G) a (gf_authors f) (gf_authors f') | _, _ => False end
  | _ => clean (gh_s G) a None
  end.
Definition open_t (G : ghost) (a : arena slice) (p : spos) (e : option (gev slice)) (e' : option pgev) : Prop :=
  match p with
  | PTagsList | PAnEventTag =>
    match e, e' with
    | Some e, Some e' => match g_tags e, g_tags e' with
                         | Some s, Some l => exists cs, clean (gh_t G) a (Some (s, cs)) /\ Forall2 (rds G) cs l
                         | _, _ => False
                         end
    | _, _ => False
    end
  | _ => clean (gh_t G) a None
  end.
Definition open_i (G : ghost) (a : arena Z) (p : spos) (f : option (gflt slice slice)) (f' : option pgflt) : Prop :=
  match p with
  | PKinds => match f, f' with Some f, Some f' => building (gh_i G) a (gf_kinds f) (gf_kinds f') | _, _ => False end
  | _ => clean (gh_i G) a None
  end.

Notation hsv := (sv smem slice slice slice).
Definition agrees (G : ghost) (m : smem) : Prop := agree (gh_s G) (m_str m) /\ agree (gh_t G) (m_tag m) /\ agree (gh_i G) (m_int m).
Definition sim (G : ghost) (h : hsv) (p : psv) : Prop :=
  let q := v_pos _ _ _ _ h in
  v_pos _ _ _ _ p = q /\ v_fname _ _ _ _ p = v_fname _ _ _ _ h /\
  renv G (v_env _ _ _ _ h) (v_env _ _ _ _ p) /\
  ropt (rev_ G (in_tags q)) (v_ev _ _ _ _ h) (v_ev _ _ _ _ p) /\
  rslot (in_tag q) (rds G) (v_tag _ _ _ _ h) (v_tag _ _ _ _ p) /\
  ropt (rflt G (in_ids q) (in_kinds q) (in_authors q)) (v_flt _ _ _ _ h) (v_flt _ _ _ _ p) /\
  rslot (in_ftag q) (rds G) (v_ftag _ _ _ _ h) (v_ftag _ _ _ _ p) /\
  rmain G (v_main _ _ _ _ h) (v_main _ _ _ _ p) /\
  agrees G (v_mem _ _ _ _ h) /\
  open_s G (m_str (v_mem _ _ _ _ h)) q (v_tag _ _ _ _ h) (v_tag _ _ _ _ p) (v_flt _ _ _ _ h) (v_flt _ _ _ _ p) (v_ftag _ _ _ _ h) (v_ftag _ _ _ _ p) /\
  open_t G (m_tag (v_mem _ _ _ _ h)) q (v_ev _ _ _ _ h) (v_ev _ _ _ _ p) /\
  open_i G (m_int (v_mem _ _ _ _ h)) q (v_flt _ _ _ _ h) (v_flt _ _ _ _ p).
Definition rout (G : ghost) (m : smem) (x : vout smem slice slice slice) (y : vout unit (list str) (list (list str)) (list Z)) : Prop :=
  match x, y with
  | VOk _ _ _ _ h, VOk _ _ _ _ p => exists G', ghle G G' /\ newer m (v_mem _ _ _ _ h) /\ sim G' h p
  | VStop _ _ _ _ e h, VStop _ _ _ _ e' p => e = e' /\ exists G', ghle G G' /\ newer m (v_mem _ _ _ _ h) /\ sim G' h p
  | VPanic _ _ _ _, VPanic _ _ _ _ => True
  | _, _ => False
  end.

(** *** Everything finished stays as the ghost grows *)
Lemma ropt_impl {A C} (R R' : A -> C -> Prop) o o' : (forall x y, R x y -> R' x y) -> ropt R o o' -> ropt R' o o'.
Proof. destruct o, o'; cbn; auto. Qed.
Lemma rslot_impl {A C} b (R R' : A -> C -> Prop) o o' : (forall x y, R x y -> R' x y) -> rslot b R o o' -> rslot b R' o o'.
Proof. destruct b; [auto|]. apply ropt_impl. Qed.
Lemma Forall2_impl {A C} (R R' : A -> C -> Prop) l l' : (forall x y, R x y -> R' x y) -> Forall2 R l l' -> Forall2 R' l l'.
Proof. induction 2; constructor; auto. Qed.
Lemma rds_mono G G' s l : ghle G G' -> rds G s l -> rds G' s l.
Proof. intros H. apply rd_mono, H. Qed.
Lemma rdi_mono G G' s l : ghle G G' -> rdi G s l -> rdi G' s l.
Proof. intros H. apply rd_mono, H. Qed.
Lemma rdt_mono G G' s l : ghle G G' -> rdt G s l -> rdt G' s l.
Proof. intros H (cs & H1 & H2). exists cs. split; [eapply rd_mono; [apply H|exact H1]|]. eapply Forall2_impl; [|exact H2]. intros; eapply rds_mono; eassumption. Qed.
Lemma rev_mono G G' b e e' : ghle G G' -> rev_ G b e e' -> rev_ G' b e e'.
Proof. intros H (?&?&?&?&?&?&K). repeat split; try assumption. eapply rslot_impl; [|exact K]. intros; eapply rdt_mono; eassumption. Qed.
Lemma rtag_mono G G' a a' : ghle G G' -> rtag G a a' -> rtag G' a a'.
Proof. intros H [H1 H2]. split; [exact H1|]. eapply ropt_impl; [|exact H2]. intros; eapply rds_mono; eassumption. Qed.
Lemma rflt_mono G G' b1 b2 b3 f f' : ghle G G' -> rflt G b1 b2 b3 f f' -> rflt G' b1 b2 b3 f f'.
Proof.
  intros H (K1&K2&K3&K4&?&?&?&?&?). repeat split; try assumption.
  - eapply rslot_impl; [|exact K1]. intros; eapply rds_mono; eassumption.
  - eapply rslot_impl; [|exact K2]. intros; eapply rdi_mono; eassumption.
  - eapply rslot_impl; [|exact K3]. intros; eapply rds_mono; eassumption.
  - eapply Forall2_impl; [|exact K4]. intros; eapply rtag_mono; eassumption.
Qed.
Lemma renv_mono G G' x y : ghle G G' -> renv G x y -> renv G' x y.
Proof.
  intros H. destruct x, y; cbn [renv]; try tauto.
  - intros [E K]. split; [exact E|eapply rev_mono; eassumption].
  - intros [E K]. split; [exact E|]. eapply Forall2_impl; [|exact K]. intros; eapply rflt_mono; eassumption.
  - intros (E & K & E2). split; [exact E|]. split; [eapply rflt_mono; eassumption|exact E2].
  - intros [E K]. split; [exact E|eapply rev_mono; eassumption].
Qed.
Lemma rmain_mono G G' x y : ghle G G' -> rmain G x y -> rmain G' x y.
Proof. intros H. destruct x, y; cbn [rmain]; try tauto. apply renv_mono, H. Qed.

(** *** The callbacks *)
Ltac begin S :=
  unfold sim in S; cbn [v_env v_pos v_ev v_tag v_flt v_ftag v_fname v_mem v_main] in S;
  destruct S as (-> & -> & Sx & Se & St & Sf & Sft & Sm & Sa & Os & Ot & Oi).
Ltac show :=
  unfold sim; cbn [v_env v_pos v_ev v_tag v_flt v_ftag v_fname v_mem v_main go set_env set_ev set_tag set_flt set_ftag set_fname set_mem set_main];
  refine (conj eq_refl (conj eq_refl (conj _ (conj _ (conj _ (conj _ (conj _ (conj _ (conj _ (conj _ (conj _ _))))))))))).
Ltac keep G := exists G; split; [apply ghle_refl|split; [apply newer_refl|]]; show; try assumption; try exact I.
Ltac keepfail G := split; [reflexivity|]; keep G.
Ltac evcase e e' Se := destruct e as [e|], e' as [e'|]; cbn [on_ev v_ev ropt] in *; try contradiction; try exact I.
Ltac fltcase f f' Sf := destruct f as [f|], f' as [f'|]; cbn [on_flt v_flt ropt] in *; try contradiction; try exact I.

Notation h_array_begin := (on_array_begin smem slice slice slice (fun m => ar_free (m_str m)) (fun m => ar_free (m_tag m))).
Notation p_array_begin := (on_array_begin unit (list str) (list (list str)) (list Z) (fun _ => []) (fun _ => [])).
Lemma sim_array_begin G h p : sim G h p -> rout G (v_mem _ _ _ _ h) (h_array_begin h) (p_array_begin p).
Proof.
  destruct h as [x q e t f ft fn m mn], p as [x' q' e' t' f' ft' fn' [] mn']. intro S. begin S.
  destruct q; cbn [on_array_begin v_pos v_mem]; try (keep G; fail).
  - evcase e e' Se. keep G.
    + destruct Se as (?&?&?&?&?&?&?). repeat split; try assumption.
    + cbn [open_t ge_tags g_tags]. exists []. split; [|constructor]. apply clean_start. exact Ot.
  - keep G. cbn [open_s building]. apply clean_start. exact Os.
Qed.

Notation h_object_begin := (on_object_begin smem slice slice slice).
Notation p_object_begin := (on_object_begin unit (list str) (list (list str)) (list Z)).
Lemma rev0 G : rev_ G false (gev0 slice) (gev0 (list (list str))). Proof. repeat split. Qed.
Lemma rflt0 G : rflt G false false false (gflt0 slice slice) (gflt0 (list str) (list Z)). Proof. repeat split. constructor. Qed.
Lemma sim_object_begin G h p : sim G h p -> rout G (v_mem _ _ _ _ h) (h_object_begin h) (p_object_begin p).
Proof.
  destruct h as [x q e t f ft fn m mn], p as [x' q' e' t' f' ft' fn' [] mn']. intro S. begin S.
  destruct q; cbn [on_object_begin v_pos v_mem fail]; try (keepfail G; fail); keep G; first [apply rev0|apply rflt0].
Qed.

Notation h_object_key := (on_object_key smem slice slice slice (fun m => ar_free (m_str m)) (fun m => ar_free (m_int m))).
Notation p_object_key := (on_object_key unit (list str) (list (list str)) (list Z) (fun _ => []) (fun _ => [])).
Lemma sim_object_key G k h p : sim G h p -> rout G (v_mem _ _ _ _ h) (h_object_key k h) (p_object_key k p).
Proof.
  destruct h as [x q e t f ft fn m mn], p as [x' q' e' t' f' ft' fn' [] mn']. intro S. begin S.
  destruct q; cbn [on_object_key v_pos v_mem fail]; try (keepfail G; fail); try (keep G; fail).
  - repeat (match goal with |- context [if seqb k ?l then _ else _] => destruct (seqb k l) end; [try (keep G; fail)|]).
    + fltcase f f' Sf. keep G.
      * destruct Sf as (?&?&?&?&?&?&?&?&?). repeat split; assumption.
      * cbn [open_s fl_ids gf_ids building]. apply clean_start. exact Os.
    + fltcase f f' Sf. keep G.
      * destruct Sf as (?&?&?&?&?&?&?&?&?). repeat split; assumption.
      * cbn [open_s fl_authors gf_authors building]. apply clean_start. exact Os.
    + fltcase f f' Sf. keep G.
      * destruct Sf as (?&?&?&?&?&?&?&?&?). repeat split; assumption.
      * cbn [open_i fl_kinds gf_kinds building]. apply clean_start. exact Oi.
    + destruct (seqb k (B "count") || seqb k (B "hll")); [keep G|].
      destruct k as [|c [|d n]]; [keepfail G|keepfail G|]. destruct (ceqb c "#"%char); [|keepfail G].
      fltcase f f' Sf. keep G. cbn [open_s building]. apply clean_start. exact Os.
  - repeat (match goal with |- context [if seqb k ?l then _ else _] => destruct (seqb k l) end; [keep G|]). keepfail G.
Qed.

Notation h_object_end := (on_object_end smem slice slice slice).
Notation p_object_end := (on_object_end unit (list str) (list (list str)) (list Z)).
Lemma Forall2_snoc {A C} (R : A -> C -> Prop) l l' x y : Forall2 R l l' -> R x y -> Forall2 R (l ++ [x]) (l' ++ [y]).
Proof. intros H1 H2. apply Forall2_app; [exact H1|]. constructor; [exact H2|constructor]. Qed.
Lemma sim_object_end G h p : sim G h p -> rout G (v_mem _ _ _ _ h) (h_object_end h) (p_object_end p).
Proof.
  destruct h as [x q e t f ft fn m mn], p as [x' q' e' t' f' ft' fn' [] mn']. intro S. begin S.
  destruct q; cbn [on_object_end v_pos v_mem fail]; try (keepfail G; fail); try (keep G; fail).
  - fltcase f f' Sf. cbn [v_env]. destruct x, x'; cbn [renv] in Sx; try contradiction; try exact I.
    + destruct Sx as [-> Sx]. keep G. split; [reflexivity|]. apply Forall2_snoc; assumption.
    + destruct Sx as (-> & Sx & -> & ->). keep G. repeat split; apply Sf.
  - evcase e e' Se. cbn [v_env]. destruct x, x'; cbn [renv] in Sx; try contradiction; try exact I.
    + destruct Sx as [-> Sx]. keep G. split; [reflexivity|exact Se].
    + destruct Sx as [-> Sx]. keep G. split; [reflexivity|exact Se].
Qed.

Notation h_bool := (on_bool smem slice slice slice).
Notation p_bool := (on_bool unit (list str) (list (list str)) (list Z)).
Lemma sim_bool G v h p : sim G h p -> rout G (v_mem _ _ _ _ h) (h_bool v h) (p_bool v p).
Proof.
  destruct h as [x q e t f ft fn m mn], p as [x' q' e' t' f' ft' fn' [] mn']. intro S. begin S.
  destruct q; cbn [on_bool v_pos v_mem fail v_env]; try (keepfail G; fail).
  destruct x, x'; cbn [renv] in Sx; try contradiction; try exact I. destruct Sx as (-> & -> & ->). keep G. repeat split.
Qed.
Lemma sim_fail G h p : sim G h p -> rout G (v_mem _ _ _ _ h) (fail _ _ _ _ h) (fail _ _ _ _ p).
Proof. intro S. split; [reflexivity|]. exists G. split; [apply ghle_refl|]. split; [apply newer_refl|exact S]. Qed.

Notation h_int := (on_int smem slice slice slice mi_app).
Notation p_int_ := (on_int unit (list str) (list (list str)) (list Z) lapp).
Ltac flds := repeat split; try assumption; try reflexivity.
Lemma sim_int G v h p : sim G h p -> rout G (v_mem _ _ _ _ h) (h_int v h) (p_int_ v p).
Proof.
  destruct h as [x q e t f ft fn m mn], p as [x' q' e' t' f' ft' fn' [] mn']. intro S. begin S.
  destruct q; cbn [on_int v_pos v_mem fail v_env]; try (keep G; fail).
  - destruct x, x'; cbn [renv] in Sx; try contradiction; try exact I. destruct Sx as (-> & Sx & -> & ->). keep G. repeat split; apply Sx.
  - fltcase f f' Sf. keep G. destruct Sf as (?&?&?&?&?&?&?&?&?). flds.
  - fltcase f f' Sf. keep G. destruct Sf as (?&?&?&?&?&?&?&?&?). flds.
  - fltcase f f' Sf. keep G. destruct Sf as (?&?&?&?&?&?&?&?&?). flds.
  - fltcase f f' Sf. cbn [open_i] in Oi. destruct (gf_kinds f) as [s|] eqn:E1; [|contradiction]. destruct (gf_kinds f') as [l|] eqn:E2; [|contradiction]. cbn [building] in Oi.
    unfold mi_app. destruct (a_app (Some s) v (m_int m)) as [s' a'] eqn:E. destruct Sa as (A1 & A2 & A3).
    destruct (clean_app _ _ _ _ _ _ _ Oi A3 E) as (C1 & C2 & C3).
    cbn [lapp opt_list id]. exists G. split; [apply ghle_refl|]. split; [unfold newer; cbn [v_mem set_mem m_str m_tag m_int set_flt]; repeat split; try apply le_n; exact C3|].
    show; try assumption; try exact I.
    repeat split; assumption.
  - evcase e e' Se. keep G. destruct Se as (?&?&?&?&?&?&?). flds.
  - evcase e e' Se. keep G. destruct Se as (?&?&?&?&?&?&?). flds.
Qed.

Notation h_string := (on_string smem slice slice slice ms_app).
Notation p_string := (on_string unit (list str) (list (list str)) (list Z) lapp).
Ltac envcase x x' Sx := destruct x, x'; cbn [renv] in Sx; try contradiction; try exact I.
Ltac appcase G m s v Os Sa :=
  unfold ms_app; let s' := fresh "s'" in let a' := fresh "a'" in let E := fresh "E" in
  destruct (a_app (Some s) v (m_str m)) as [s' a'] eqn:E;
  let A1 := fresh "A1" in let A2 := fresh "A2" in let A3 := fresh "A3" in destruct Sa as (A1 & A2 & A3);
  let C1 := fresh "C1" in let C2 := fresh "C2" in let C3 := fresh "C3" in
  destruct (clean_app _ _ _ _ _ _ _ Os A1 E) as (C1 & C2 & C3);
  cbn [lapp opt_list id]; exists G; split; [apply ghle_refl|];
  split; [unfold newer; cbn [v_mem set_mem m_str m_tag m_int set_flt set_tag set_ftag]; repeat split; try apply le_n; exact C3|];
  show; try assumption; try exact I; repeat split; assumption.
Lemma sim_string G v h p : sim G h p -> rout G (v_mem _ _ _ _ h) (h_string v h) (p_string v p).
Proof.
  destruct h as [x q e t f ft fn m mn], p as [x' q' e' t' f' ft' fn' [] mn']. intro S. begin S.
  destruct q; cbn [on_string v_pos v_mem fail v_env]; try (keepfail G; fail).
  - repeat (match goal with |- context [if seqb v ?l then _ else _] => destruct (seqb v l) end;
      [keep G; cbn [renv]; repeat split; first [apply rev0|apply rflt0|constructor|idtac]|]). keepfail G.
  - envcase x x' Sx. destruct Sx as [-> Sx]. keep G. split; [reflexivity|exact Sx].
  - envcase x x' Sx. destruct Sx as [-> Sx]. keep G. split; [reflexivity|exact Sx].
  - envcase x x' Sx. destruct Sx as (-> & -> & ->). destruct (seqb id0 []); keep G; repeat split.
  - keep G. reflexivity.
  - envcase x x' Sx. destruct Sx as (-> & Sx & -> & ->). keep G. repeat split; apply Sx.
  - envcase x x' Sx. destruct Sx as [-> Sx]. keep G. split; [reflexivity|exact Sx].
  - keep G. reflexivity.
  - envcase x x' Sx. destruct Sx as [-> ->]. destruct (seqb sub0 []); keep G; repeat split.
  - keep G. reflexivity.
  - envcase x x' Sx. destruct Sx as (-> & Sx & -> & ->). keep G. repeat split; apply Sx.
  - fltcase f f' Sf. cbn [open_s] in Os. destruct (gf_ids f) as [s|] eqn:E1; [|contradiction]. destruct (gf_ids f') as [l|] eqn:E2; [|contradiction]. cbn [building] in Os.
    appcase G m s v Os Sa.
  - fltcase f f' Sf. cbn [open_s] in Os. destruct (gf_authors f) as [s|] eqn:E1; [|contradiction]. destruct (gf_authors f') as [l|] eqn:E2; [|contradiction]. cbn [building] in Os.
    appcase G m s v Os Sa.
  - fltcase f f' Sf. keep G. destruct Sf as (?&?&?&?&?&?&?&?&?). flds.
  - cbn [open_s v_ftag] in *. destruct ft as [s|]; [|contradiction]. destruct ft' as [l|]; [|contradiction]. cbn [building] in Os.
    appcase G m s v Os Sa.
  - evcase e e' Se. keep G. destruct Se as (?&?&?&?&?&?&?). flds.
  - evcase e e' Se. keep G. destruct Se as (?&?&?&?&?&?&?). flds.
  - evcase e e' Se. keep G. destruct Se as (?&?&?&?&?&?&?). flds.
  - evcase e e' Se. keep G. destruct Se as (?&?&?&?&?&?&?). flds.
  - cbn [open_s v_tag] in *. destruct t as [s|]; [|contradiction]. destruct t' as [l|]; [|contradiction]. cbn [building] in Os.
    appcase G m s v Os Sa.
Qed.

Notation h_array_end := (on_array_end smem slice slice slice ms_done mt_app mt_done mi_done).
Notation p_array_end := (on_array_end unit (list str) (list (list str)) (list Z) ldone lapp ldone ldone).
Lemma rtag_set G n o o' m m' : Forall2 (rtag G) m m' -> ropt (rds G) o o' -> Forall2 (rtag G) (map_set n o m) (map_set n o' m').
Proof.
  intros H Ho. induction H as [|[k v] [k' v'] m m' [H1 H2] H IH]; cbn [map_set fst snd] in *.
  - constructor; [split; [reflexivity|exact Ho]|constructor].
  - subst k'. destruct (seqb n k); constructor; try assumption; split; cbn [fst snd]; try reflexivity; assumption.
Qed.
Ltac settle_str G m s l Os Sa :=
  destruct Sa as (A1 & A2 & A3);
  destruct (clean_done _ _ _ _ 15 ten_thousand Os A1) as (D1 & D2 & D3 & D4 & D5);
  set (G' := mkGh (settle (gh_s G) s l) (gh_t G) (gh_i G));
  assert (GL : ghle G G') by (split; [exact D1|split; apply gle_refl]);
  exists G'; split; [exact GL|];
  split; [unfold newer, ms_done; cbn [v_mem set_mem m_str m_tag m_int]; repeat split; try apply le_n; exact D5|].
Lemma sim_array_end G h p : sim G h p -> rout G (v_mem _ _ _ _ h) (h_array_end h) (p_array_end p).
Proof.
  destruct h as [x q e t f ft fn m mn], p as [x' q' e' t' f' ft' fn' [] mn']. intro S. begin S.
  destruct q; cbn [on_array_end v_pos v_mem fail v_env]; try (keepfail G; fail); try (keep G; fail).
  - fltcase f f' Sf. cbn [open_s] in Os. destruct (gf_ids f) as [s|] eqn:E1; [|contradiction]. destruct (gf_ids f') as [l|] eqn:E2; [|contradiction]. cbn [building] in Os.
    settle_str G m s l Os Sa. show; try assumption.
    + eapply renv_mono; eassumption.
    + eapply ropt_impl; [|exact Se]. intros; eapply rev_mono; eassumption.
    + eapply ropt_impl; [|exact St]. intros; eapply rds_mono; eassumption.
    + destruct (rflt_mono _ _ _ _ _ _ _ GL Sf) as (?&?&?&?&?&?&?&?&?). cbn [ropt]. flds. rewrite E1, E2. exact D4.
    + eapply ropt_impl; [|exact Sft]. intros; eapply rds_mono; eassumption.
    + eapply rmain_mono; eassumption.
    + repeat split; assumption.
  - fltcase f f' Sf. cbn [open_s] in Os. destruct (gf_authors f) as [s|] eqn:E1; [|contradiction]. destruct (gf_authors f') as [l|] eqn:E2; [|contradiction]. cbn [building] in Os.
    settle_str G m s l Os Sa. show; try assumption.
    + eapply renv_mono; eassumption.
    + eapply ropt_impl; [|exact Se]. intros; eapply rev_mono; eassumption.
    + eapply ropt_impl; [|exact St]. intros; eapply rds_mono; eassumption.
    + destruct (rflt_mono _ _ _ _ _ _ _ GL Sf) as (?&?&?&?&?&?&?&?&?). cbn [ropt]. flds. rewrite E1, E2. exact D4.
    + eapply ropt_impl; [|exact Sft]. intros; eapply rds_mono; eassumption.
    + eapply rmain_mono; eassumption.
    + repeat split; assumption.
  - fltcase f f' Sf. cbn [open_i] in Oi. destruct (gf_kinds f) as [s|] eqn:E1; [|contradiction]. destruct (gf_kinds f') as [l|] eqn:E2; [|contradiction]. cbn [building] in Oi.
    destruct Sa as (A1 & A2 & A3). destruct (clean_done _ _ _ _ 8 ten_thousand Oi A3) as (D1 & D2 & D3 & D4 & D5).
    set (G' := mkGh (gh_s G) (gh_t G) (settle (gh_i G) s l)). assert (GL : ghle G G') by (split; [apply gle_refl|split; [apply gle_refl|exact D1]]).
    exists G'; split; [exact GL|]. split; [unfold newer, mi_done; cbn [v_mem set_mem m_str m_tag m_int]; repeat split; try apply le_n; exact D5|]. show; try assumption.
    + eapply renv_mono; eassumption.
    + destruct (rflt_mono _ _ _ _ _ _ _ GL Sf) as (?&?&?&?&?&?&?&?&?). cbn [ropt]. flds. rewrite E1, E2. exact D4.
    + eapply rmain_mono; eassumption.
    + repeat split; assumption.
  - fltcase f f' Sf. cbn [open_s v_ftag] in *. destruct ft as [s|]; [|contradiction]. destruct ft' as [l|]; [|contradiction]. cbn [building] in Os.
    settle_str G m s l Os Sa. show; try assumption.
    + eapply renv_mono; eassumption.
    + eapply ropt_impl; [|exact Se]. intros; eapply rev_mono; eassumption.
    + eapply ropt_impl; [|exact St]. intros; eapply rds_mono; eassumption.
    + destruct (rflt_mono _ _ _ _ _ _ _ GL Sf) as (?&?&?&K&?&?&?&?&?). cbn [ropt]. flds. cbn [v_fname fl_tags gf_tags]. apply rtag_set; [exact K|exact D4].
    + eapply rmain_mono; eassumption.
    + repeat split; assumption.
  - evcase e e' Se. cbn [open_t] in Ot. pose proof (clean_done_none (gh_t G) (m_tag m) (g_tags e) 7 ten_thousand Ot (proj1 (proj2 Sa))) as (D1 & D2 & D3).
    exists G. split; [apply ghle_refl|]. split; [unfold newer, mt_done; cbn [v_mem set_mem m_str m_tag m_int]; repeat split; try apply le_n; exact D3|]. show; try assumption.
    destruct Sa as (A1 & A2 & A3). repeat split; assumption.
  - evcase e e' Se. cbn [open_t] in Ot. destruct (g_tags e) as [s|] eqn:E1; [|contradiction]. destruct (g_tags e') as [l|] eqn:E2; [|contradiction]. destruct Ot as (cs & O1 & O2).
    destruct Sa as (A1 & A2 & A3). destruct (clean_done _ _ _ _ 7 ten_thousand O1 A2) as (D1 & D2 & D3 & D4 & D5).
    set (G' := mkGh (gh_s G) (settle (gh_t G) s cs) (gh_i G)). assert (GL : ghle G G') by (split; [apply gle_refl|split; [exact D1|apply gle_refl]]).
    exists G'; split; [exact GL|]. split; [unfold newer, mt_done; cbn [v_mem set_mem m_str m_tag m_int]; repeat split; try apply le_n; exact D5|]. show; try assumption.
    + eapply renv_mono; eassumption.
    + destruct Se as (?&?&?&?&?&?&?). cbn [ropt]. flds. rewrite E1, E2. exists cs. split; [exact D4|exact O2].
    + eapply rmain_mono; eassumption.
    + repeat split; assumption.
  - evcase e e' Se. cbn [open_t open_s v_tag] in *. destruct t as [ts|]; [|contradiction]. destruct t' as [tl|]; [|contradiction]. cbn [building] in Os.
    destruct (g_tags e) as [s|] eqn:E1; [|contradiction]. destruct (g_tags e') as [l|] eqn:E2; [|contradiction]. destruct Ot as (cs & O1 & O2).
    unfold mt_app. destruct (a_app (Some s) ts (m_tag m)) as [s' a'] eqn:EA. cbn [lapp opt_list id].
    destruct Sa as (A1 & A2 & A3). destruct (clean_app _ _ _ _ _ _ _ O1 A2 EA) as (C1 & C2 & C3).
    destruct (clean_done _ _ _ _ 15 ten_thousand Os A1) as (D1 & D2 & D3 & D4 & D5).
    set (G' := mkGh (settle (gh_s G) ts tl) (gh_t G) (gh_i G)). assert (GL : ghle G G') by (split; [exact D1|split; apply gle_refl]).
    exists G'; split; [exact GL|]. split; [unfold newer, ms_done; cbn [v_mem set_mem m_str m_tag m_int]; repeat split; [exact D5|exact C3|apply le_n]|]. show; try assumption.
    + eapply renv_mono; eassumption.
    + eapply ropt_impl; [|exact Sf]. intros; eapply rflt_mono; eassumption.
    + eapply ropt_impl; [|exact Sft]. intros; eapply rds_mono; eassumption.
    + eapply rmain_mono; eassumption.
    + repeat split; assumption.
    + cbn [open_t ge_tags g_tags]. exists (cs ++ [ts]). split; [exact C2|]. apply Forall2_snoc; [|exact D4].
      eapply Forall2_impl; [|exact O2]. intros; eapply rds_mono; eassumption.
Qed.

(** *** The walk *)
Notation hvisit := (visit smem slice slice slice (fun m => ar_free (m_str m)) ms_app ms_done (fun m => ar_free (m_tag m)) mt_app mt_done (fun m => ar_free (m_int m)) mi_app mi_done).
Notation hall := (visit_all smem slice slice slice (fun m => ar_free (m_str m)) ms_app ms_done (fun m => ar_free (m_tag m)) mt_app mt_done (fun m => ar_free (m_int m)) mi_app mi_done).
Notation hmem := (visit_members smem slice slice slice (fun m => ar_free (m_str m)) ms_app ms_done (fun m => ar_free (m_tag m)) mt_app mt_done (fun m => ar_free (m_int m)) mi_app mi_done).

Lemma rout_weaken G0 G m0 m x y : ghle G0 G -> newer m0 m -> rout G m x y -> rout G0 m0 x y.
Proof.
  intros H1 H2. destruct x, y; cbn [rout]; try tauto.
  - intros (G' & A & D & C). exists G'. split; [eapply ghle_trans; eassumption|]. split; [eapply newer_trans; eassumption|exact C].
  - intros (E & G' & A & D & C). split; [exact E|]. exists G'. split; [eapply ghle_trans; eassumption|]. split; [eapply newer_trans; eassumption|exact C].
Qed.
Lemma rout_bind G m x y k k' : rout G m x y -> (forall G1 h p, sim G1 h p -> rout G1 (v_mem _ _ _ _ h) (k h) (k' p)) ->
  rout G m (vbind _ _ _ _ x k) (vbind _ _ _ _ y k').
Proof.
  intros H K. destruct x, y; cbn [rout vbind] in *; try contradiction; try assumption.
  destruct H as (G' & A & D & C). eapply rout_weaken; [exact A|exact D|]. apply K, C.
Qed.

Lemma sim_visit : forall j G h p, sim G h p -> rout G (v_mem _ _ _ _ h) (hvisit j h) (pv j p).
Proof.
  fix IH 1. intros [|b|t|v|l|l] G h p S.
  - apply sim_fail, S.
  - apply sim_bool, S.
  - cbn [visit]. destruct (parse_int t); [apply sim_int, S|apply sim_fail, S].
  - apply sim_string, S.
  - rewrite !visit_arr. apply rout_bind; [apply sim_array_begin, S|]. clear G h p S. intros G h p S.
    apply rout_bind; [|intros G1 h1 p1 S1; apply sim_array_end, S1]. revert G h p S.
    induction l as [|x l IHl]; intros G h p S.
    + cbn [visit_all rout]. exists G. split; [apply ghle_refl|]. split; [apply newer_refl|exact S].
    + rewrite !visit_all_cons. apply rout_bind; [apply IH, S|exact IHl].
  - rewrite !visit_obj. apply rout_bind; [apply sim_object_begin, S|]. clear G h p S. intros G h p S.
    apply rout_bind; [|intros G1 h1 p1 S1; apply sim_object_end, S1]. revert G h p S.
    induction l as [|[k x] l IHl]; intros G h p S.
    + cbn [visit_members rout]. exists G. split; [apply ghle_refl|]. split; [apply newer_refl|exact S].
    + cbn [visit_members]. apply rout_bind; [apply sim_object_key, S|]. clear G h p S. intros G h p S.
      apply rout_bind; [apply IH, S|exact IHl].
Qed.

(** *** What the caller sees *)
Lemma read_strs_rd G m s l : agrees G m -> rds G s l -> read_strs m s = l.
Proof. intros H. apply rd_read, H. Qed.
Lemma read_ints_rd G m s l : agrees G m -> rdi G s l -> read_ints m s = l.
Proof. intros H. apply rd_read, H. Qed.
Lemma read_tags_rd G m s l : agrees G m -> rdt G s l -> read_tags m s = l.
Proof.
  intros H (cs & H1 & H2). unfold read_tags. rewrite (rd_read (gh_t G) (m_tag m) nil_slice s cs (proj1 (proj2 H)) H1).
  clear H1. induction H2 as [|c x cs l H2 H3 IH]; [reflexivity|]. cbn [map]. rewrite (read_strs_rd G m c x H H2), IH. reflexivity.
Qed.
Lemma view_ev_eq G m e e' : agrees G m -> rev_ G false e e' -> view_ev _ (read_tags m) e = view_ev _ id e'.
Proof.
  intros H (H1&H2&H3&H4&H5&H6&H7). unfold view_ev. rewrite H1, H2, H3, H4, H5, H6. f_equal. cbn [rslot] in H7.
  destruct (g_tags e), (g_tags e'); cbn in *; try contradiction; [|reflexivity]. apply (read_tags_rd G); assumption.
Qed.
Lemma view_flt_eq G m f f' : agrees G m -> rflt G false false false f f' -> view_flt _ _ (read_strs m) (read_ints m) f = view_flt _ _ id id f'.
Proof.
  intros H (H1&H2&H3&H4&H5&H6&H7&H8&H9). unfold view_flt. rewrite H5, H6, H7, H8, H9. cbn [rslot] in *. f_equal.
  - destruct (gf_ids f), (gf_ids f'); cbn in *; try contradiction; [|reflexivity]. f_equal. apply (read_strs_rd G); assumption.
  - destruct (gf_kinds f), (gf_kinds f'); cbn in *; try contradiction; [|reflexivity]. f_equal. apply (read_ints_rd G); assumption.
  - destruct (gf_authors f), (gf_authors f'); cbn in *; try contradiction; [|reflexivity]. f_equal. apply (read_strs_rd G); assumption.
  - clear -H H4. induction H4 as [|[k o] [k' o'] l l' [A D] HF IH]; [reflexivity|]. cbn [map fst snd] in *. rewrite IH, A. f_equal. f_equal.
    destruct o, o'; cbn in *; try contradiction; [|reflexivity]. f_equal. apply (read_strs_rd G); assumption.
Qed.
Lemma look_eq G m x y : agrees G m -> renv G x y -> look m x = view_env _ _ _ id id id y.
Proof.
  intros H. destruct x, y; cbn [renv]; try contradiction; unfold look; cbn [view_env].
  - reflexivity.
  - intros [-> K]. rewrite (view_ev_eq G) with (e' := e0); auto.
  - intros [-> K]. do 2 f_equal. induction K as [|f f' l l' K1 K2 IH]; [reflexivity|]. cbn [map]. rewrite IH, (view_flt_eq G) with (f' := f'); auto.
  - intros (-> & -> & ->). reflexivity.
  - intros ->. reflexivity.
  - intros (-> & K & -> & ->). rewrite (view_flt_eq G) with (f' := f0); auto.
  - intros [-> K]. rewrite (view_ev_eq G) with (e' := e0); auto.
  - intros ->. reflexivity.
  - intros (-> & ->). reflexivity.
  - intros ->. reflexivity.
Qed.

(** A parser as the program holds it: its positions are inside allocated arrays. *)
Definition wfa {T} (a : arena T) : Prop := sl_buf (ar_free a) < ar_next a /\ sl_len (ar_free a) = 0.
Definition wfp (m : smem) : Prop := wfa (m_str m) /\ wfa (m_tag m) /\ wfa (m_int m).
Lemma wfp_new : wfp new_parser. Proof. unfold wfp, wfa, new_parser, a_new. cbn. repeat split; lia. Qed.
(** Between messages: nothing is being built. *)
Definition settled (G : ghost) (m : smem) : Prop :=
  agrees G m /\ clean (gh_s G) (m_str m) None /\ clean (gh_t G) (m_tag m) None /\ clean (gh_i G) (m_int m) None.
Lemma sim_start G m : settled G m -> sim G (start smem slice slice slice m) (start unit (list str) (list (list str)) (list Z) tt).
Proof. intros (A & C1 & C2 & C3). unfold start. show; try assumption; try exact I. Qed.
Definition no_ghost : ghost := mkGh (fun _ _ => None) (fun _ _ => None) (fun _ _ => None).
Lemma settled_none m : wfp m -> settled no_ghost m.
Proof.
  intros ((A1 & A2) & (D1 & D2) & (C1 & C2)). unfold settled, agrees, agree, gle, clean, no_ghost, beyond. cbn [gh_s gh_t gh_i].
  repeat split; try assumption; try discriminate; try reflexivity.
Qed.
Lemma rmain_of G h p : sim G h p -> ropt (renv G) (main_of _ _ _ _ h) (main_of _ _ _ _ p).
Proof.
  intros (_ & _ & Hx & _ & _ & _ & _ & Hm & _). unfold main_of.
  destruct (v_main _ _ _ _ h), (v_main _ _ _ _ p); cbn [rmain] in Hm; try contradiction; cbn [ropt]; auto.
Qed.
Lemma sim_wfp G h p : sim G h p -> wfp (v_mem _ _ _ _ h).
Proof.
  intros (_ & _ & _ & _ & _ & _ & _ & _ & _ & Os & Ot & Oi).
  assert (K : forall {T} (g : nat -> nat -> option T) a o, clean g a o -> wfa a) by (intros T g a o (_ & H1 & H2 & _); split; assumption).
  split; [|split].
  - unfold open_s, building in Os. destruct (v_pos _ _ _ _ h); try (eapply K; exact Os);
    repeat match type of Os with match ?x with _ => _ end => destruct x; try contradiction end; eapply K; exact Os.
  - unfold open_t in Ot. destruct (v_pos _ _ _ _ h); try (eapply K; exact Ot);
    repeat match type of Ot with match ?x with _ => _ end => destruct x; try contradiction end; destruct Ot as (cs & Ot & _); eapply K; exact Ot.
  - unfold open_i, building in Oi. destruct (v_pos _ _ _ _ h); try (eapply K; exact Oi);
    repeat match type of Oi with match ?x with _ => _ end => destruct x; try contradiction end; eapply K; exact Oi.
Qed.

(** Positions between objects *)
Definition outer (p : spos) : bool :=
  match p with PEnvelope | PEvent | PReq | POk | PEose | PCount | PAuth | PClose | PClosed | PNotice => true | _ => false end.
Lemma outer_visit : forall j s s', outer (v_pos _ _ _ _ s) = true -> pv j s = pok s' -> outer (v_pos _ _ _ _ s') = true.
Proof.
  fix IH 1. intros [|b|t|v|l|l] s s' O E.
  - discriminate E.
  - cbn [visit] in E. unfold on_bool in E. destruct (v_pos _ _ _ _ s) eqn:Q; try discriminate. destruct (v_env _ _ _ _ s); try discriminate.
    match type of E with VOk _ _ _ _ ?y = _ => assert (s' = y) as -> by congruence end. cbn. rewrite Q. reflexivity.
  - cbn [visit] in E. destruct (parse_int t); [|discriminate]. unfold on_int in E. destruct (v_pos _ _ _ _ s) eqn:Q; try discriminate O;
    assert (s' = s) as -> by congruence; rewrite Q; reflexivity.
  - cbn [visit] in E. unfold on_string in E. destruct (v_pos _ _ _ _ s) eqn:Q; try discriminate O.
    1: { repeat match type of E with (if ?c then _ else _) = _ => destruct c end; try discriminate E;
         match type of E with VOk _ _ _ _ ?y = _ => assert (s' = y) as -> by congruence end; reflexivity. }
    all: repeat match type of E with match ?c with _ => _ end = _ => destruct c end; try discriminate E;
         match type of E with VOk _ _ _ _ ?y = _ => assert (s' = y) as -> by congruence end; cbn [set_env v_pos]; rewrite Q; reflexivity.
  - rewrite visit_arr in E. assert (E1 : p_array_begin s = pok s) by (unfold on_array_begin; destruct (v_pos _ _ _ _ s); try discriminate O; reflexivity).
    rewrite E1 in E. cbn [vbind] in E. destruct (pall l s) as [s1| |] eqn:E2; try discriminate E. cbn [vbind] in E.
    assert (O1 : outer (v_pos _ _ _ _ s1) = true).
    { clear E E1. revert s s1 O E2. induction l as [|x l IHl]; intros s s1 O E2.
      - cbn [visit_all] in E2. assert (s1 = s) as -> by congruence. exact O.
      - rewrite visit_all_cons in E2. destruct (pv x s) as [s2| |] eqn:E3; try discriminate E2. cbn [vbind] in E2.
        eapply IHl; [|exact E2]. eapply IH; [exact O|exact E3]. }
    unfold on_array_end in E. destruct (v_pos _ _ _ _ s1) eqn:Q; try discriminate O1; try discriminate E;
    match type of E with VOk _ _ _ _ ?y = _ => assert (s' = y) as -> by congruence end; cbn [set_main v_pos]; rewrite Q; reflexivity.
  - rewrite visit_obj in E. destruct (p_object_begin s) as [s1| |]; try discriminate E. cbn [vbind] in E.
    destruct (pmem l s1) as [s2| |]; try discriminate E. cbn [vbind] in E. unfold on_object_end, on_ev, on_flt in E.
    destruct (v_pos _ _ _ _ s2); try discriminate E.
    + destruct (v_flt _ _ _ _ s2); [|discriminate E]. destruct (v_env _ _ _ _ s2); try discriminate E;
      match type of E with VOk _ _ _ _ ?y = _ => assert (s' = y) as -> by congruence end; reflexivity.
    + destruct (v_ev _ _ _ _ s2); [|discriminate E]. destruct (v_env _ _ _ _ s2); try discriminate E;
      match type of E with VOk _ _ _ _ ?y = _ => assert (s' = y) as -> by congruence end; reflexivity.
    + match type of E with VOk _ _ _ _ ?y = _ => assert (s' = y) as -> by congruence end; reflexivity.
Qed.

(** One message, from any state of the arrays in which nothing is being built *)
Lemma heap_run_spec j G m : settled G m ->
  match heap_run j m, sonic_json j with
  | Ok (x, e, m'), Ok (y, e') => e = e' /\ wfp m' /\ newer m m' /\ exists G', ghle G G' /\ agrees G' m' /\
      (exists z, ropt (renv G') x z /\ option_map (view_env _ _ _ id id id) z = y) /\ (e = None -> settled G' m')
  | Panic, Panic => True
  | _, _ => False
  end.
Proof.
  intro H. unfold heap_run, sonic_json, run. pose proof (sim_visit j G _ _ (sim_start G m H)) as R.
  destruct (hvisit j (start smem slice slice slice m)) as [h|e h|] eqn:EH; destruct (pv j (start unit _ _ _ tt)) as [p|e' p|] eqn:EP; cbn [rout] in R; try contradiction.
  - destruct R as (G' & R1 & R2 & R3). split; [reflexivity|]. split; [eapply sim_wfp, R3|]. split; [exact R2|]. exists G'. split; [exact R1|].
    split; [apply R3|]. split; [exists (main_of _ _ _ _ p); split; [apply rmain_of, R3|reflexivity]|]. intros _.
    assert (O : outer (v_pos _ _ _ _ p) = true) by (eapply outer_visit; [|exact EP]; reflexivity). destruct R3 as (Q & _ & _ & _ & _ & _ & _ & _ & Sa & Os & Ot & Oi). rewrite Q in O.
    destruct (v_pos _ _ _ _ h); try discriminate O; exact (conj Sa (conj Os (conj Ot Oi))).
  - destruct R as (-> & G' & R1 & R2 & R3). split; [reflexivity|]. split; [eapply sim_wfp, R3|]. split; [exact R2|]. exists G'. split; [exact R1|].
    split; [apply R3|]. split; [exists (main_of _ _ _ _ p); split; [apply rmain_of, R3|reflexivity]|]. intro Z. discriminate Z.
  - exact I.
Qed.
