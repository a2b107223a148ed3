(** Mentions in content: C93. Thread roots and parents: C94. *)
From Verif Require Import Base EventModel TagsModel TagsProofs Bech32Model Nip19Model BlocksModel Props_Blocks RefModel.
Import ListNotations.
Local Open Scope nat_scope.

(** * C93. Spec: where a content mentions something. *)
Definition word_chars : str := B "0123456789ABCDEFGHIJKLMNOPQRSTUVWXYZ_abcdefghijklmnopqrstuvwxyz".
Definition code_kinds : list str := [B "npub"; B "nprofile"; B "note"; B "nevent"; B "naddr"].
Definition ends_outside (a : str) : Prop := a = [] \/ exists b c, a = b ++ [c] /\ ~ In c word_chars.
Definition starts_outside (z : str) : Prop := z = [] \/ exists c b, z = c :: b /\ ~ In c word_chars.
Definition mention (s : str) (i j : nat) : Prop := exists a k w z,
  s = a ++ B "nostr:" ++ k ++ B "1" ++ w ++ z /\ i = length a /\ j = i + length (B "nostr:" ++ k ++ B "1" ++ w) /\
  In k code_kinds /\ w <> [] /\ (forall c, In c w -> In c word_chars) /\ ends_outside a /\ starts_outside z.

Lemma is_word_spec c : is_word c = true <-> In c word_chars.
Proof.
  assert (H : forall c, Bool.eqb (is_word c) (existsb (Ascii.eqb c) word_chars) = true) by (apply bytes_forallb; vm_compute; reflexivity).
  specialize (H c). apply eqb_prop in H. rewrite H, existsb_exists. split.
  - intros (x & I & E). apply Ascii.eqb_eq in E. subst. exact I.
  - intro I. exists c. split; [exact I|apply Ascii.eqb_refl].
Qed.
Lemma not_word c : is_word c = false <-> ~ In c word_chars.
Proof. rewrite <- is_word_spec. destruct (is_word c); split; congruence. Qed.
Lemma words_spec w : (forall c, In c w -> In c word_chars) <-> forallb is_word w = true.
Proof. rewrite forallb_forall. split; intros H c I; apply is_word_spec, H, I. Qed.
Lemma code_end_split s : exists w z, s = w ++ z /\ code_end s = length w /\ forallb is_word w = true /\ (z = [] \/ exists c b, z = c :: b /\ is_word c = false).
Proof.
  induction s as [|c r IH]; [exists [], []; auto|]. cbn [code_end]. destruct (is_word c) eqn:E.
  - destruct IH as (w & z & -> & H1 & H2 & H3). exists (c :: w), z. cbn [app length forallb]. rewrite H1, E, H2. auto.
  - exists [], (c :: r). repeat split; eauto.
Qed.
Lemma code_end_app w z : forallb is_word w = true -> (z = [] \/ exists c b, z = c :: b /\ is_word c = false) -> code_end (w ++ z) = length w.
Proof.
  induction w as [|c w IH]; cbn [forallb app]; intros H Z.
  - destruct Z as [->|(c & b & -> & E)]; [reflexivity|]. cbn [code_end]. rewrite E. reflexivity.
  - apply andb_prop in H. destruct H as [H1 H2]. cbn [code_end length]. rewrite H1, IH by assumption. reflexivity.
Qed.
Definition stops_word (z : str) := z = [] \/ exists c b, z = c :: b /\ is_word c = false.
Definition shape (s : str) (n : nat) := exists k w z, In k mention_kinds /\ s = B "nostr:" ++ k ++ B "1" ++ w ++ z /\ w <> [] /\ forallb is_word w = true /\ stops_word z /\ n = 6 + length k + 1 + length w.
Lemma skipn_pre {A} (a b : list A) n : n = length a -> skipn n (a ++ b) = b.
Proof. intros ->. rewrite skipn_app, skipn_all, Nat.sub_diag. reflexivity. Qed.
Lemma here_spec s n : mention_here s = Some n <-> shape s n.
Proof.
  unfold mention_here. split.
  - destruct (has_prefix s (B "nostr:")) eqn:P; [|discriminate]. apply has_prefix_spec in P. destruct P as [t ->]. cbv zeta. rewrite (skipn_pre (B "nostr:") t 6) by reflexivity.
    match goal with |- context [find ?f mention_kinds] => destruct (find f mention_kinds) as [k|] eqn:F end; [|discriminate]. apply find_some in F. destruct F as [Ik P]. apply has_prefix_spec in P. destruct P as [u ->].
    rewrite (skipn_pre (k ++ B "1") u) by (rewrite app_length; reflexivity). destruct (code_end_split u) as (w & z & -> & -> & W & Z).
    destruct w as [|c w]; [discriminate|]. cbn [length]. intro H. assert (n = 6 + length k + 1 + S (length w)) as -> by congruence.
    exists k, (c :: w), z. repeat split; try assumption; [rewrite <- !app_assoc; reflexivity|discriminate].
  - intros (k & w & z & Ik & -> & N & W & Z & ->). rewrite has_prefix_app. cbv zeta. rewrite (skipn_pre (B "nostr:")) by reflexivity.
    assert (F : find (fun k0 => has_prefix (k ++ B "1" ++ w ++ z) (k0 ++ B "1")) mention_kinds = Some k) by (destruct Ik as [<-|[<-|[<-|[<-|[<-|[]]]]]]; reflexivity).
    rewrite F. replace (k ++ B "1" ++ w ++ z) with ((k ++ B "1") ++ (w ++ z)) by (rewrite <- app_assoc; reflexivity).
    rewrite (skipn_pre (k ++ B "1")) by (rewrite app_length; reflexivity). rewrite code_end_app by assumption. destruct w; [congruence|reflexivity].
Qed.
(** No mention starts inside another. *)
Lemma no_overlap s n d m c : mention_here s = Some n -> 0 < d < n -> mention_here (skipn d s) = Some m -> nth_error s (d - 1) = Some c -> is_word c = true.
Proof.
  intros H D H2 E. apply here_spec in H. destruct H as (k & w & z & Ik & -> & N & W & Z & ->).
  destruct (Nat.ltb_spec d 6) as [L|L].
  - assert (d = 1 \/ d = 2 \/ d = 3 \/ d = 4 \/ d = 5) as HD by lia. destruct HD as [-> | [-> | [-> | [-> | ->]]]]; cbn in E; assert (c = "n"%char \/ c = "o"%char \/ c = "s"%char \/ c = "t"%char \/ c = "r"%char) as HC by (injection E as <-; auto); destruct HC as [-> | [-> | [-> | [-> | ->]]]]; reflexivity.
  - destruct (Nat.eq_dec d 6) as [->|].
    + exfalso. apply here_spec in H2. destruct H2 as (k2 & w2 & z2 & _ & H2 & _). rewrite (skipn_pre (B "nostr:")) in H2 by reflexivity. destruct Ik as [<-|[<-|[<-|[<-|[<-|[]]]]]]; discriminate H2.
    + rewrite nth_error_app2 in E by (cbn; lia). replace (k ++ B "1" ++ w ++ z) with ((k ++ B "1" ++ w) ++ z) in E by (rewrite <- !app_assoc; reflexivity).
      rewrite nth_error_app1 in E by (rewrite !app_length; change (length (B "1")) with 1; change (length (B "nostr:")) with 6; lia). apply nth_error_In in E.
      assert (F : forallb is_word (k ++ B "1" ++ w) = true). { rewrite !forallb_app, W. destruct Ik as [<-|[<-|[<-|[<-|[<-|[]]]]]]; reflexivity. }
      rewrite forallb_forall in F. exact (F _ E).
Qed.
Definition edge (word : bool) (s : str) (d : nat) : Prop := match d with O => word = false | S e => exists c, nth_error s e = Some c /\ is_word c = false end.
Lemma edge_cons word c r d : edge word (c :: r) (S d) <-> edge (is_word c) r d.
Proof. destruct d; cbn [edge nth_error]; [|reflexivity]. split; [intros (x & H & E); congruence|intro; eauto]. Qed.
Lemma from_spec s : forall word skip at_ i j, In (i, j) (mentions_from word skip at_ s) <->
  exists d n, i = at_ + d /\ j = i + n /\ skip <= d /\ edge word s d /\ mention_here (skipn d s) = Some n.
Proof.
  induction s as [|c r IH]; intros word skip at_ i j.
  - cbn [mentions_from]. split; [intros []|]. intros (d & n & _ & _ & _ & _ & H). rewrite skipn_nil in H. discriminate.
  - cbn [mentions_from]. destruct skip as [|k].
    + set (m := if word then None else mention_here (c :: r)).
      assert (T : (exists d n, i = at_ + d /\ j = i + n /\ 0 <= d /\ edge word (c :: r) d /\ mention_here (skipn d (c :: r)) = Some n) <->
                  ((exists n, m = Some n /\ i = at_ /\ j = at_ + n) \/ exists d n, i = S at_ + d /\ j = i + n /\ 0 <= d /\ edge (is_word c) r d /\ mention_here (skipn d r) = Some n)).
      { split.
        - intros (d & n & -> & -> & _ & E & H). destruct d as [|d].
          + left. exists n. unfold m. cbn in E. rewrite E. cbn [skipn] in H. repeat split; [exact H|lia|lia].
          + right. exists d, n. rewrite edge_cons in E. repeat split; try assumption; lia.
        - intros [(n & M & -> & ->)|(d & n & -> & -> & _ & E & H)].
          + exists 0, n. unfold m in M. destruct word; [discriminate|]. repeat split; try assumption; lia.
          + exists (S d), n. rewrite edge_cons. repeat split; try assumption; lia. }
      rewrite T. clear T. destruct m as [n|] eqn:M.
      * cbn [In]. rewrite IH. split.
        -- intros [H|(d & n' & -> & -> & Hd & E & H)]; [left; exists n; split; [reflexivity|split; congruence]|]. right. exists d, n'. repeat split; try assumption; lia.
        -- intros [(n' & H & -> & ->)|(d & n' & -> & -> & _ & E & H)]; [left; congruence|]. right. exists d, n'. repeat split; try assumption.
           destruct (Nat.leb_spec (n - 1) d) as [L|L]; [exact L|exfalso]. unfold m in M. destruct word; [discriminate|].
           destruct (Nat.eq_dec d 0) as [->|Nd].
           ++ cbn in E. assert (X := no_overlap (c :: r) n 1 n' c M ltac:(lia) H eq_refl). congruence.
           ++ destruct d as [|d]; [congruence|]. destruct E as (x & E1 & E2). assert (X := no_overlap (c :: r) n (S (S d)) n' x M ltac:(lia) H). cbn [Nat.sub nth_error] in X. rewrite X in E2; [discriminate|exact E1].
      * rewrite IH. split.
        -- intros (d & n' & H). right. exists d, n'. exact H.
        -- intros [(n' & H & _)|H]; [discriminate|exact H].
    + rewrite IH. split.
      * intros (d & n & -> & -> & L & E & H). exists (S d), n. rewrite edge_cons. repeat split; try assumption; lia.
      * intros (d & n & -> & -> & L & E & H). destruct d as [|d]; [lia|]. exists d, n. rewrite edge_cons in E. repeat split; try assumption; lia.
Qed.
Lemma kinds_same k : In k mention_kinds <-> In k code_kinds.
Proof. cbn [In mention_kinds code_kinds]. tauto. Qed.
(** Every mention is found, and nothing else. *)
Theorem C93_mentions s i j : In (i, j) (mentions s) <-> mention s i j.
Proof.
  unfold mentions. rewrite from_spec. split.
  - intros (d & n & -> & -> & _ & E & H). cbn [Nat.add] in *. apply here_spec in H. destruct H as (k & w & z & Ik & H & N & W & Z & ->).
    assert (Ld : length (firstn d s) = d). { rewrite firstn_length. destruct (Nat.leb_spec d (length s)); [lia|]. rewrite skipn_all2 in H by lia. discriminate. }
    exists (firstn d s), k, w, z. rewrite Ld. repeat split; try assumption.
    + rewrite <- H, firstn_skipn. reflexivity.
    + rewrite !app_length. cbn. lia.
    + apply kinds_same, Ik.
    + apply words_spec, W.
    + destruct d as [|e]; [left; reflexivity|]. right. destruct E as (c & E & F). exists (firstn e s), c. split; [|apply not_word, F].
      rewrite (firstn_S_nth s e c) by (apply nth_error_Some; congruence). f_equal. f_equal. apply nth_error_nth. exact E.
    + destruct Z as [->|(c & b & -> & F)]; [left; reflexivity|right; exists c, b; split; [reflexivity|apply not_word, F]].
  - intros (a & k & w & z & -> & -> & -> & Ik & N & W & A & Z). exists (length a), (6 + length k + 1 + length w). repeat split.
    + rewrite !app_length. cbn. lia.
    + lia.
    + destruct A as [->|(b & c & -> & F)]; [reflexivity|]. rewrite app_length, Nat.add_comm. cbn [length Nat.add edge]. exists c. split; [|apply not_word, F].
      rewrite <- app_assoc. rewrite nth_error_app2, Nat.sub_diag by lia. reflexivity.
    + rewrite skipn_pre by reflexivity. apply here_spec. exists k, w, z. repeat split; try assumption; [apply kinds_same, Ik|apply words_spec, W|].
      destruct Z as [->|(c & b & -> & F)]; [left; reflexivity|right; exists c, b; split; [reflexivity|apply not_word, F]].
Qed.
(** They come in order, and none overlaps the next. *)
Lemma from_after s word skip at_ : Forall (fun p => at_ + skip <= fst p) (mentions_from word skip at_ s).
Proof. apply Forall_forall. intros [i j] H. apply from_spec in H. destruct H as (d & n & -> & _ & L & _). cbn. lia. Qed.
Lemma from_sorted s : forall word skip at_, StronglySorted (fun a b => fst a < snd a /\ snd a <= fst b) (mentions_from word skip at_ s).
Proof.
  induction s as [|c r IH]; intros word skip at_; [constructor|]. cbn [mentions_from]. destruct skip as [|k]; [|apply IH].
  destruct (if word then None else mention_here (c :: r)) as [n|] eqn:M; [|apply IH]. constructor; [apply IH|].
  assert (0 < n). { destruct word; [discriminate|]. apply here_spec in M. destruct M as (k & w & z & _ & _ & _ & _ & _ & ->). lia. }
  eapply Forall_impl; [|apply from_after]. cbn. intros p H0. lia.
Qed.
Theorem C93_in_order s : StronglySorted (fun a b => fst a < snd a /\ snd a <= fst b) (mentions s).
Proof. apply from_sorted. Qed.

(** Spec: the hint is the third item of the first tag that has this name and value. *)
Definition names (key v : str) (t : tag) : Prop := exists r, t = key :: v :: r.
Inductive first_tag (key v : str) : list tag -> option tag -> Prop :=
| First_none ts : Forall (fun t => ~ names key v t) ts -> first_tag key v ts None
| First_some a t b : Forall (fun t => ~ names key v t) a -> names key v t -> first_tag key v (a ++ t :: b) (Some t).
Definition third (o : option tag) : list str := match o with Some (_ :: _ :: r :: _) => [r] | _ => [] end.
Definition fifth (o : option tag) : option str := match o with Some (_ :: _ :: _ :: _ :: a :: _) => Some a | _ => None end.
Lemma named_names key v t : named_value key v t = true <-> names key v t.
Proof.
  unfold names. destruct t as [|k [|x r]]; cbn [named_value]; try (split; [discriminate|intros [? H]; discriminate]).
  split. { intro H. apply andb_prop in H. destruct H as [H1 H2]. apply seqb_eq in H1, H2. subst. eauto. } intros [r' H]. injection H as -> -> ->. rewrite !seqb_refl. reflexivity.
Qed.
Lemma first_is_found key v ts : first_tag key v ts (find_with_value ts key v).
Proof.
  rewrite find_with_value_find. induction ts as [|t ts IH]; [constructor; constructor|]. cbn [find]. destruct (named_value key v t) eqn:E.
  - apply (First_some key v [] t ts); [constructor|]. apply named_names, E.
  - assert (F : ~ names key v t) by (rewrite <- named_names; congruence). inversion IH; subst; [constructor; constructor; assumption|].
    apply (First_some key v (t :: a)); [constructor; assumption|assumption].
Qed.
Lemma snoc_items {A} (l : list A) o : items (fold_left snoc l o) = items o ++ l.
Proof. revert o. induction l as [|x l IH]; intro o; cbn [fold_left]; [rewrite app_nil_r; reflexivity|]. rewrite IH. destruct o; cbn; rewrite <- ?app_assoc; reflexivity. Qed.
Section Refs.
Variable parse_ok : str -> bool.
(** Spec: what a mention points at. [to_pointer] reads the code alone (C24-C26). *)
Definition points (tags : list tag) (code : str) (o : option pointer) : Prop :=
  match to_pointer code with
  | Ok (PProfile p) => exists f, first_tag (B "p") (pp_pubkey p) tags f /\
      if valid_pubkey parse_ok (pp_pubkey p) then exists q, o = Some (PProfile q) /\ pp_pubkey q = pp_pubkey p /\ items (pp_relays q) = items (pp_relays p) ++ third f
      else o = None
  | Ok (PEvent p) => exists q f, o = Some (PEvent q) /\ ep_id q = ep_id p /\ ep_kind q = ep_kind p /\
      (first_tag (B "e") (ep_id p) tags f \/ (exists c, nip19_decode code = Ok (B "note", c)) /\ f = None) /\ items (ep_relays q) = items (ep_relays p) ++ third f /\
      ep_author q = match ep_author p, fifth f with [], Some a => if valid_pubkey parse_ok a then a else [] | a, _ => a end
  | Ok (PEntity p) => exists q f, o = Some (PEntity q) /\ first_tag (B "a") (entity_ref p) tags f /\ en_pubkey q = en_pubkey p /\ en_kind q = en_kind p /\ en_identifier q = en_identifier p /\
      items (en_relays q) = items (en_relays p) ++ third f
  | Err => o = None
  | Panic => False
  end.

Theorem C93_pointer tags code o : ref_pointer parse_ok tags code = Ok o -> points tags code o.
Proof.
  unfold ref_pointer, points, to_pointer. destruct (nip19_decode code) as [[pre [h|[p|p|p]]]| |] eqn:D; cbn [obind]; intro H; try discriminate; try congruence.
  - destruct (seqb_spec pre (B "npub")) as [->|].
    + exists (find_with_value tags (B "p") h). cbn [pp_pubkey pp_relays]. split; [apply first_is_found|]. destruct (valid_pubkey parse_ok h); [|congruence].
      eexists. split; [symmetry; match type of H with Ok ?x = Ok _ => assert (E9 : x = o) by congruence; exact E9 end|]. split; reflexivity.
    + destruct (seqb_spec pre (B "note")) as [->|]; [|congruence]. exists (mkEventPtr h None [] 0), None. split; [congruence|]. repeat split. right. split; [eauto|reflexivity].
  - exists (find_with_value tags (B "p") (pp_pubkey p)). split; [apply first_is_found|]. cbv zeta in H. destruct (valid_pubkey parse_ok (pp_pubkey p)); [|congruence].
    eexists. split; [symmetry; match type of H with Ok ?x = Ok _ => assert (E9 : x = o) by congruence; exact E9 end|]. cbn [pp_pubkey pp_relays]. split; [reflexivity|]. apply snoc_items.
  - eexists _, (find_with_value tags (B "e") (ep_id p)). split; [symmetry; match type of H with Ok ?x = Ok _ => assert (E9 : x = o) by congruence; exact E9 end|]. cbn [ep_id ep_kind ep_relays ep_author]. repeat split.
    + left. apply first_is_found.
    + apply snoc_items.
    + destruct (find_with_value tags (B "e") (ep_id p)) as [[|t0 [|t1 [|t2 [|t3 [|t4 t]]]]]|]; cbn [fifth]; destruct (ep_author p); try reflexivity.
  - eexists _, (find_with_value tags (B "a") (entity_ref p)). split; [symmetry; match type of H with Ok ?x = Ok _ => assert (E9 : x = o) by congruence; exact E9 end|]. split; [apply first_is_found|]. cbn [en_pubkey en_kind en_identifier en_relays]. repeat split. apply snoc_items.
Qed.
(** Every mention of the content is reported once, in order, with its own text. *)
Theorem C93_references e rs : parse_references parse_ok e = Ok rs ->
  map (fun r => (rf_start r, rf_end r)) rs = mentions (ev_content e) /\
  Forall (fun r => exists a z code, ev_content e = a ++ rf_text r ++ z /\ length a = rf_start r /\ rf_end r = rf_start r + length (rf_text r) /\ rf_text r = B "nostr:" ++ code /\ points (ev_tags e) code (rf_pointer r)) rs.
Proof.
  unfold parse_references. assert (M : Forall (fun p => mention (ev_content e) (fst p) (snd p)) (mentions (ev_content e))). { apply Forall_forall. intros [i j] H. apply C93_mentions, H. }
  revert rs M. generalize (mentions (ev_content e)) as l. set (s := ev_content e). set (tags := ev_tags e). clearbody s tags. clear e.
  induction l as [|[i j] l IH]; intros rs M H; cbn [references_at] in H. { assert (rs = []) as -> by congruence. split; [reflexivity|constructor]. }
  inversion M as [|x y M1 M2]; subst x y. destruct M1 as (a & k & w & z & E & Hi & Hj & _). cbn [fst snd] in Hi, Hj.
  set (m := B "nostr:" ++ k ++ B "1" ++ w) in *. assert (E' : s = a ++ m ++ z) by (rewrite E; unfold m; rewrite <- !app_assoc; reflexivity).
  assert (Ls : length s = length a + length m + length z) by (rewrite E', !app_length; lia). assert (Lm : 6 <= length m) by (unfold m; rewrite app_length; cbn; lia).
  assert (S1 : slice s i j = Ok m). { rewrite slice_ok by lia. f_equal. rewrite E', skipn_pre by lia. replace (j - i) with (length m + 0) by lia. rewrite firstn_app_2, firstn_O, app_nil_r. reflexivity. }
  assert (S2 : slice s (i + 6) j = Ok (k ++ B "1" ++ w)). { rewrite slice_ok by lia. f_equal. rewrite E'. unfold m at 1. replace (a ++ (B "nostr:" ++ k ++ B "1" ++ w) ++ z) with ((a ++ B "nostr:") ++ (k ++ B "1" ++ w) ++ z) by (rewrite <- !app_assoc; reflexivity).
    rewrite skipn_pre by (rewrite app_length; cbn; lia). assert (length m = 6 + length (k ++ B "1" ++ w)) by (unfold m; rewrite app_length; reflexivity). replace (j - (i + 6)) with (length (k ++ B "1" ++ w) + 0) by lia. rewrite firstn_app_2, firstn_O, app_nil_r. reflexivity. }
  rewrite S1, S2 in H. cbn [obind] in H. destruct (ref_pointer parse_ok tags (k ++ B "1" ++ w)) as [p| |] eqn:P; cbn [obind] in H; try discriminate.
  destruct (references_at parse_ok s tags l) as [r| |] eqn:R; cbn [obind] in H; try discriminate. assert (rs = mkRef m i j p :: r) as -> by congruence.
  destruct (IH r M2 eq_refl) as [I1 I2]. split. { cbn [map rf_start rf_end]. rewrite I1. reflexivity. }
  constructor; [|exact I2]. exists a, z, (k ++ B "1" ++ w). cbn [rf_text rf_start rf_end rf_pointer]. repeat split; try (symmetry; assumption); try assumption. apply C93_pointer, P.
Qed.
(** It never fails, and panics only where the decoder does (C25). *)
Theorem C93_total e : (forall i j, mention (ev_content e) i j -> nip19_decode (firstn (j - (i + 6)) (skipn (i + 6) (ev_content e))) <> Panic) -> exists rs, parse_references parse_ok e = Ok rs.
Proof.
  unfold parse_references. intro D. assert (M : Forall (fun p => mention (ev_content e) (fst p) (snd p)) (mentions (ev_content e))). { apply Forall_forall. intros [i j] H. apply C93_mentions, H. }
  revert M. generalize (mentions (ev_content e)) as l. induction l as [|[i j] l IH]; intro M; cbn [references_at]; [eauto|]. inversion M as [|x y M1 M2]; subst x y. specialize (D i j M1). destruct (IH M2) as [rs IH'].
  destruct M1 as (a & k & w & z & E & Hi & Hj & _). cbn [fst snd] in *. assert (j <= length (ev_content e) /\ i + 6 <= j). { rewrite E, Hj, Hi, !app_length. cbn. lia. }
  rewrite !slice_ok by lia. cbn [obind]. rewrite IH'. unfold ref_pointer. destruct (nip19_decode _) as [[pre [h|[p|p|p]]]| |]; cbn [obind]; eauto; [|congruence].
  destruct (seqb pre (B "npub")); cbn [obind]; eauto. destruct (seqb pre (B "note")); cbn [obind]; eauto.
Qed.
End Refs.
Definition demo_note : event := mkEvent [] [] 0 1 [[B "p"; B "7e7e9c42a91bfef19fa929e5fda1b72e0ebc1a4c1141673e2794234d86addf4e"; B "wss://r"]] (B "hi nostr:npub10elfcs4fr0l0r8af98jlmgdh9c8tcxjvz9qkw038js35mp4dma8qzvjptg, xnostr:npub1q nostr:note1a") [].
Example C93_applies : exists rs, parse_references (fun _ => true) demo_note = Ok rs /\
  map (fun r => (rf_start r, rf_end r)) rs = [(3, 72); (88, 100)] /\ map rf_pointer rs = [Some (PProfile (mkProfile (B "7e7e9c42a91bfef19fa929e5fda1b72e0ebc1a4c1141673e2794234d86addf4e") (Some [B "wss://r"]))); None].
Proof. eexists. split; [vm_compute; reflexivity|]. split; vm_compute; reflexivity. Qed.
(** False: no content crashes the reader. *)
Theorem C93_crash_refuted : exists e, parse_references (fun _ => true) e = Panic.
Proof.
  destruct (to_code (B "naddr") (write_tlv TLVKind (B "abc"))) as [t| |] eqn:E; [|vm_compute in E; discriminate|vm_compute in E; discriminate].
  exists (mkEvent [] [] 0 1 [] (B "nostr:" ++ t) []). vm_compute in E. injection E as <-. vm_compute. reflexivity.
Qed.
(** False: hints are relay addresses. An empty one is taken, and one in a later tag is not looked for. *)
Theorem C93_hint_refuted : exists e rs h, parse_references (fun _ => true) e = Ok rs /\ map rf_pointer rs = [Some (PProfile (mkProfile h (Some [[]])))].
Proof.
  exists (mkEvent [] [] 0 1 [[B "p"; B "7e7e9c42a91bfef19fa929e5fda1b72e0ebc1a4c1141673e2794234d86addf4e"; []]; [B "p"; B "7e7e9c42a91bfef19fa929e5fda1b72e0ebc1a4c1141673e2794234d86addf4e"; B "wss://r"]] (B "nostr:npub10elfcs4fr0l0r8af98jlmgdh9c8tcxjvz9qkw038js35mp4dma8qzvjptg") []).
  eexists _, _. split; vm_compute; reflexivity.
Qed.

(** * C94. Thread roots and parents. Spec: tags by name, marker and place. *)
Section Threads.
Variable parse_ok relay_ok : str -> bool.
Definition has_marker (m : str) (t : tag) : Prop := exists k v r rest, t = k :: v :: r :: m :: rest.
Definition event_tag (t : tag) : Prop := exists v rest, t = B "e" :: v :: rest.
(** the pointer a tag says when its id is sound *)
Definition says_event (t : tag) (p : event_pointer) : Prop := event_ptr_from_tag parse_ok relay_ok t = Ok p.
(** what a chosen tag yields: its pointer, or the empty one when its id is not an id *)
Definition reads (t : tag) (o : option tpointer) : Prop := (exists q, says_event t q /\ o = Some (TPtr (PEvent q))) \/ (valid_32byte_hex (nth 1 t []) = false /\ o = Some (TPtr (PEvent (mkEventPtr [] None [] 0)))).
Lemma event_of_reads k v t : reads (k :: v :: t) (Some (event_of parse_ok relay_ok (k :: v :: t))).
Proof.
  unfold reads, says_event, event_of, event_ptr_from_tag. cbn [at_ nth_error obind nth]. destruct (valid_32byte_hex v); cbn [negb]; [|right; split; reflexivity]. left. eexists. split; reflexivity.
Qed.
Definition first_such (P : tag -> Prop) (ts : list tag) (t : tag) : Prop := exists a b, ts = a ++ t :: b /\ P t /\ Forall (fun u => ~ P u) a.
Definition last_such (P : tag -> Prop) (ts : list tag) (t : tag) : Prop := exists a b, ts = a ++ t :: b /\ P t /\ Forall (fun u => ~ P u) b.
Lemma marked_spec t m : marked t m = true <-> has_marker m t.
Proof.
  unfold marked, has_marker. destruct t as [|a [|b [|c [|d r]]]]; cbn [nth_error]; try (split; [discriminate|intros (? & ? & ? & ? & H); discriminate]).
  rewrite seqb_eq. split; [intros ->; eauto 10|]. intros (? & ? & ? & ? & H). congruence.
Qed.
Lemma find_first (f : tag -> bool) (P : tag -> Prop) ts : (forall t, f t = true <-> P t) ->
  match find f ts with Some t => first_such P ts t | None => Forall (fun u => ~ P u) ts end.
Proof.
  intro H. induction ts as [|t ts IH]; cbn [find]; [constructor|]. destruct (f t) eqn:E.
  - exists [], ts. split; [reflexivity|]. split; [apply H, E|constructor].
  - assert (~ P t) by (rewrite <- H; congruence). destruct (find f ts) as [u|].
    + destruct IH as (a & b & -> & Pu & F). exists (t :: a), b. repeat split; [exact Pu|constructor; assumption].
    + constructor; assumption.
Qed.
Definition root_tag (t : tag) : Prop := event_tag t /\ has_marker (B "root") t.
(** Which tag the root comes from. *)
Theorem C94_root ts :
  match nip10_root parse_ok relay_ok ts with
  | Some p => (exists t, first_such root_tag ts t /\ reads t (Some p)) \/
              (Forall (fun t => ~ root_tag t) ts /\ exists t, first_such event_tag ts t /\ p = TPtr (PEvent (mkEventPtr (nth 1 t []) None [] 0)))
  | None => Forall (fun t => ~ event_tag t) ts
  end.
Proof.
  unfold nip10_root. assert (H := find_first (fun t => seqb (tag_key t) (B "e") && marked t (B "root")) root_tag ts). match type of H with ?A -> _ => assert (X : A) end.
  { intro t. rewrite andb_true_iff, marked_spec, seqb_eq. unfold root_tag, event_tag. split.
    - intros [H1 H2]. split; [|exact H2]. destruct H2 as (k & v & r & rest & ->). cbn in H1. subst. eauto.
    - intros [(v & rest & ->) H2]. split; [reflexivity|exact H2]. }
  specialize (H X). clear X. destruct (find _ ts) as [t|].
  - left. exists t. split; [exact H|]. destruct H as (a & b & _ & [(v & rest & ->) _] & _). apply event_of_reads.
  - rewrite find_tag_find. assert (H2 := find_first (named (B "e")) event_tag ts). match type of H2 with ?A -> _ => assert (X : A) end.
    { intro t. unfold event_tag. destruct t as [|k [|v r]]; cbn [named]; try (split; [discriminate|intros (? & ? & E); discriminate]). rewrite seqb_eq. split; [intros ->; eauto|]. intros (? & ? & E). congruence. }
    specialize (H2 X). destruct (find (named (B "e")) ts) as [t|]; [|exact H2]. right. split; [exact H|]. exists t. split; [exact H2|reflexivity].
Qed.
Definition ref_tag (t : tag) : Prop := exists k v rest, (k = B "e" \/ k = B "a") /\ t = k :: v :: rest.
Definition reply_tag (t : tag) : Prop := ref_tag t /\ has_marker (B "reply") t.
Definition parent_tag (t : tag) : Prop := ref_tag t /\ has_marker (B "parent") t.
Definition plain_tag (t : tag) : Prop := ref_tag t /\ ~ has_marker (B "reply") t /\ ~ has_marker (B "parent") t /\ ~ has_marker (B "mention") t.
Lemma one_marker m n t : has_marker m t -> has_marker n t -> m = n.
Proof. intros (? & ? & ? & ? & ->) (? & ? & ? & ? & H). congruence. Qed.
Definition chosen (ts : list tag) (parent last : option tag) (r : option tag * option tag) : Prop :=
  (exists t, first_such reply_tag ts t /\ fst r = Some t) \/
  (Forall (fun t => ~ reply_tag t) ts /\ ((exists t, last_such parent_tag ts t /\ fst r = Some t) \/ (Forall (fun t => ~ parent_tag t) ts /\ fst r = parent)) /\
   ((exists t, last_such plain_tag ts t /\ snd r = Some t) \/ (Forall (fun t => ~ plain_tag t) ts /\ snd r = last))).
Lemma chosen_skip t ts parent last r : ~ reply_tag t -> ~ parent_tag t -> ~ plain_tag t -> chosen ts parent last r -> chosen (t :: ts) parent last r.
Proof.
  intros N1 N2 N3 [(u & (a & b & -> & Q & F) & E)|(F & G1 & G2)].
  - left. exists u. split; [|exact E]. exists (t :: a), b. split; [reflexivity|]; split; [exact Q|constructor; assumption].
  - right. split; [constructor; assumption|]. split.
    + destruct G1 as [(u & (a & b & -> & Q & F') & E)|[F' E]]; [left; exists u; split; [|exact E]; exists (t :: a), b; split; [reflexivity|]; split; assumption|right; split; [constructor; assumption|exact E]].
    + destruct G2 as [(u & (a & b & -> & Q & F') & E)|[F' E]]; [left; exists u; split; [|exact E]; exists (t :: a), b; split; [reflexivity|]; split; assumption|right; split; [constructor; assumption|exact E]].
Qed.
Lemma chosen_parent t ts parent last r : ~ reply_tag t -> parent_tag t -> ~ plain_tag t -> chosen ts (Some t) last r -> chosen (t :: ts) parent last r.
Proof.
  intros N1 P2 N3 [(u & (a & b & -> & Q & F) & E)|(F & G1 & G2)].
  - left. exists u. split; [|exact E]. exists (t :: a), b. split; [reflexivity|]; split; [exact Q|constructor; assumption].
  - right. split; [constructor; assumption|]. split.
    + left. destruct G1 as [(u & (a & b & -> & Q & F') & E)|[F' E]]; [exists u; split; [|exact E]; exists (t :: a), b; split; [reflexivity|]; split; assumption|exists t; split; [exists [], ts; split; [reflexivity|]; split; assumption|exact E]].
    + destruct G2 as [(u & (a & b & -> & Q & F') & E)|[F' E]]; [left; exists u; split; [|exact E]; exists (t :: a), b; split; [reflexivity|]; split; assumption|right; split; [constructor; assumption|exact E]].
Qed.
Lemma chosen_plain t ts parent last r : plain_tag t -> chosen ts parent (Some t) r -> chosen (t :: ts) parent last r.
Proof.
  intros P3. assert (N1 : ~ reply_tag t) by (intros [_ H]; exact (proj1 (proj2 P3) H)). assert (N2 : ~ parent_tag t) by (intros [_ H]; exact (proj1 (proj2 (proj2 P3)) H)). intros [(u & (a & b & -> & Q & F) & E)|(F & G1 & G2)].
  - left. exists u. split; [|exact E]. exists (t :: a), b. split; [reflexivity|]; split; [exact Q|constructor; assumption].
  - right. split; [constructor; assumption|]. split.
    + destruct G1 as [(u & (a & b & -> & Q & F') & E)|[F' E]]; [left; exists u; split; [|exact E]; exists (t :: a), b; split; [reflexivity|]; split; assumption|right; split; [constructor; assumption|exact E]].
    + left. destruct G2 as [(u & (a & b & -> & Q & F') & E)|[F' E]]; [exists u; split; [|exact E]; exists (t :: a), b; split; [reflexivity|]; split; assumption|exists t; split; [exists [], ts; split; [reflexivity|]; split; assumption|exact E]].
Qed.
Lemma loop_chosen ts : forall parent last, chosen ts parent last (parent_loop ts parent last).
Proof.
  induction ts as [|t ts IH]; intros parent last.
  { right. split; [constructor|]. split; right; (split; [constructor|reflexivity]). }
  cbn [parent_loop]. assert (NR : forall r, t = r -> length r < 2 -> ~ ref_tag t) by (intros r -> L (k & v & rest & _ & E); subst; cbn in L; lia).
  destruct t as [|k [|v t]].
  1: { assert (NR' := NR _ eq_refl (Nat.lt_0_succ 1)). apply chosen_skip; try (intros [H _]; exact (NR' H)). apply IH. }
  1: { assert (NR' := NR _ eq_refl (Nat.lt_succ_diag_r 1)). apply chosen_skip; try (intros [H _]; exact (NR' H)). apply IH. }
  clear NR. destruct (seqb k (B "e") || seqb k (B "a")) eqn:K; rewrite <- negb_orb, K; cbn [negb].
  2: { apply orb_false_iff in K. destruct K as [K1 K2]. apply seqb_neq in K1, K2. assert (NR : ~ ref_tag (k :: v :: t)) by (intros (k' & v' & rest & [->| ->] & E); congruence). apply chosen_skip; try (intros [H _]; exact (NR H)). apply IH. }
  assert (R : ref_tag (k :: v :: t)). { exists k, v, t. split; [|reflexivity]. apply orb_true_iff in K. destruct K as [K|K]; apply seqb_eq in K; auto. }
  destruct (marked (k :: v :: t) (B "reply")) eqn:M1.
  { apply marked_spec in M1. left. exists (k :: v :: t). split; [|reflexivity]. exists [], ts. repeat split; [exact R|exact M1|constructor]. }
  assert (N1 : ~ has_marker (B "reply") (k :: v :: t)) by (rewrite <- marked_spec; congruence).
  destruct (marked (k :: v :: t) (B "parent")) eqn:M2.
  { apply marked_spec in M2. apply chosen_parent; [intros [_ H]; exact (N1 H)|split; assumption|intros (_ & _ & H & _); exact (H M2)|]. apply IH. }
  assert (N2 : ~ has_marker (B "parent") (k :: v :: t)) by (rewrite <- marked_spec; congruence).
  destruct (marked (k :: v :: t) (B "mention")) eqn:M3.
  { apply marked_spec in M3. apply chosen_skip; [intros [_ H]; exact (N1 H)|intros [_ H]; exact (N2 H)|intros (_ & _ & _ & H); exact (H M3)|]. apply IH. }
  apply chosen_plain; [|apply IH]. repeat split; try assumption. rewrite <- marked_spec. congruence.
Qed.
(** Which tag the parent comes from: the first reply, or else the last parent, or else the last that carries no such mark. *)
Theorem C94_parent ts :
  (exists t, first_such reply_tag ts t /\ reads t (nip10_parent parse_ok relay_ok ts)) \/
  (Forall (fun t => ~ reply_tag t) ts /\ exists t, last_such parent_tag ts t /\ reads t (nip10_parent parse_ok relay_ok ts)) \/
  (Forall (fun t => ~ reply_tag t /\ ~ parent_tag t) ts /\ exists t, last_such plain_tag ts t /\ nip10_parent parse_ok relay_ok ts = Some (TPtr (PEvent (mkEventPtr (nth 1 t []) None [] 0)))) \/
  (Forall (fun t => ~ reply_tag t /\ ~ parent_tag t /\ ~ plain_tag t) ts /\ nip10_parent parse_ok relay_ok ts = None).
Proof.
  unfold nip10_parent. assert (H := loop_chosen ts None None). destruct (parent_loop ts None None) as [p l]. destruct H as [(t & F & E)|(F & [(t & G & E)|[G E]] & H)]; cbn [fst snd] in *; subst p.
  - left. exists t. split; [exact F|]. destruct F as (a & b & _ & [(k & v & rest & _ & ->) _] & _). apply event_of_reads.
  - right. left. split; [exact F|]. exists t. split; [exact G|]. destruct G as (a & b & _ & [(k & v & rest & _ & ->) _] & _). apply event_of_reads.
  - right. right. destruct H as [(t & H & E)|[H E]]; subst l.
    + left. split; [|exists t; auto]. rewrite Forall_forall in *. auto.
    + right. split; [|reflexivity]. rewrite Forall_forall in *. auto.
Qed.
(** A mention is never the parent. *)
Corollary C94_mention_not_parent ts : Forall (fun t => ref_tag t -> has_marker (B "mention") t) ts -> nip10_parent parse_ok relay_ok ts = None.
Proof.
  intro F. destruct (C94_parent ts) as [(t & (a & b & -> & [R M] & _) & _)|[(_ & t & (a & b & -> & [R M] & _) & _)|[(_ & t & (a & b & -> & (R & _ & _ & M) & _) & _)|[_ H]]]]; [exfalso..|exact H];
  apply Forall_elt in F; specialize (F R).
  - discriminate (one_marker _ _ _ F M).
  - discriminate (one_marker _ _ _ F M).
  - exact (M F).
Qed.
(** NIP-22: the first of the three kinds of tag that has a value decides. *)
Definition kind_tag (ks : list str) (t : tag) : Prop := exists k v rest, In k ks /\ t = k :: v :: rest.
Definition nip22_says (ke ka ki : str) (t : tag) (o : tpointer) : Prop :=
  (tag_key t = ke /\ forall q, event_ptr_from_tag parse_ok relay_ok t = Ok q -> o = TPtr (PEvent q)) \/
  (tag_key t = ka /\ forall q, entity_from_tag parse_ok relay_ok t = Ok q -> o = TPtr (PEntity q)) \/
  (tag_key t = ki /\ o = TThing (tag_value t)).
Lemma nip22_spec ke ka ki ts : match nip22_first parse_ok relay_ok ke ka ki ts with
  | Some o => exists t, first_such (kind_tag [ke; ka; ki]) ts t /\ nip22_says ke ka ki t o
  | None => Forall (fun t => ~ kind_tag [ke; ka; ki] t) ts
  end.
Proof.
  induction ts as [|t ts IH]; cbn [nip22_first]; [constructor|].
  assert (HERE : forall o, kind_tag [ke; ka; ki] t -> nip22_says ke ka ki t o -> exists u, first_such (kind_tag [ke; ka; ki]) (t :: ts) u /\ nip22_says ke ka ki u o).
  { intros o K S. exists t. split; [|exact S]. exists [], ts. repeat split; [exact K|constructor]. }
  assert (SKIP : ~ kind_tag [ke; ka; ki] t -> match nip22_first parse_ok relay_ok ke ka ki ts with Some o => exists u, first_such (kind_tag [ke; ka; ki]) (t :: ts) u /\ nip22_says ke ka ki u o | None => Forall (fun u => ~ kind_tag [ke; ka; ki] u) (t :: ts) end).
  { intro N. destruct (nip22_first parse_ok relay_ok ke ka ki ts); [|constructor; assumption]. destruct IH as (u & (a & b & -> & K & F) & S). exists u. split; [|exact S]. exists (t :: a), b. repeat split; [exact K|constructor; assumption]. }
  destruct t as [|k [|v t]]; try (apply SKIP; intros (? & ? & ? & _ & E); discriminate).
  destruct (seqb_spec k ke) as [->|N1]; [apply HERE|destruct (seqb_spec k ka) as [->|N2]; [apply HERE|destruct (seqb_spec k ki) as [->|N3]; [apply HERE|apply SKIP]]].
  - exists ke, v, t. cbn. auto.
  - left. split; [reflexivity|]. intros q Q. unfold event_of. rewrite Q. reflexivity.
  - exists ka, v, t. cbn. auto.
  - right. left. split; [reflexivity|]. intros q Q. unfold entity_of. rewrite Q. reflexivity.
  - exists ki, v, t. cbn. auto.
  - right. right. split; reflexivity.
  - intros (k' & v' & r & I & E). injection E as -> _ _. cbn in I. intuition congruence.
Qed.
Theorem C94_comment_root ts : match nip22_root parse_ok relay_ok ts with
  | Some o => exists t, first_such (kind_tag [B "E"; B "A"; B "I"]) ts t /\ nip22_says (B "E") (B "A") (B "I") t o
  | None => Forall (fun t => ~ kind_tag [B "E"; B "A"; B "I"] t) ts
  end.
Proof. apply nip22_spec. Qed.
Theorem C94_comment_parent ts : match nip22_parent parse_ok relay_ok ts with
  | Some o => exists t, first_such (kind_tag [B "e"; B "a"; B "i"]) ts t /\ nip22_says (B "e") (B "a") (B "i") t o
  | None => Forall (fun t => ~ kind_tag [B "e"; B "a"; B "i"] t) ts
  end.
Proof. apply nip22_spec. Qed.
(** False: what comes out names an event of one of the tags. A bad id marked "root" or "reply" hides a good one and yields the empty pointer; an "a" tag is read as if it were an event id. *)
Definition id1 : str := B "cc6b9fea033f59c3c39a0407c5f1bfee439b077508d918cfdc0d6fd431d39393".
Definition address1 : str := B "30023:7e7e9c42a91bfef19fa929e5fda1b72e0ebc1a4c1141673e2794234d86addf4e:post".
Theorem C94_root_refuted : nip10_root parse_ok relay_ok [[B "e"; B "junk"; []; B "root"]; [B "e"; id1; []; B "root"]] = Some (TPtr (PEvent (mkEventPtr [] None [] 0))).
Proof. reflexivity. Qed.
Theorem C94_parent_address_refuted : nip10_parent parse_ok relay_ok [[B "e"; id1]; [B "a"; address1]] = Some (TPtr (PEvent (mkEventPtr address1 None [] 0))) /\
  nip10_parent parse_ok relay_ok [[B "e"; id1]; [B "a"; address1; []; B "reply"]] = Some (TPtr (PEvent (mkEventPtr [] None [] 0))).
Proof. split; vm_compute; reflexivity. Qed.
Theorem C94_comment_refuted : nip22_root parse_ok relay_ok [[B "A"; B "junk"]; [B "E"; id1]] = Some (TPtr (PEntity (mkEntity [] 0 [] None))).
Proof. vm_compute. reflexivity. Qed.
End Threads.
Example C94_applies : nip10_root (fun _ => false) (fun _ => true) [[B "e"; B "x"]; [B "e"; id1; B "wss://r"; B "root"]] = Some (TPtr (PEvent (mkEventPtr id1 (Some [B "wss://r"]) [] 0))) /\
  nip10_parent (fun _ => false) (fun _ => true) [[B "e"; B "x"; []; B "parent"]; [B "e"; id1; B "wss://r"; B "reply"]] = Some (TPtr (PEvent (mkEventPtr id1 (Some [B "wss://r"]) [] 0))) /\
  nip10_parent (fun _ => false) (fun _ => true) [[B "e"; id1; []; B "mention"]] = None /\
  nip22_parent (fun _ => true) (fun _ => true) [[B "p"; B "x"]; [B "a"; address1]] = Some (TPtr (PEntity (mkEntity (B "7e7e9c42a91bfef19fa929e5fda1b72e0ebc1a4c1141673e2794234d86addf4e") 30023 (B "post") None))).
Proof. repeat split; vm_compute; reflexivity. Qed.

Print Assumptions C93_mentions.
Print Assumptions C93_in_order.
Print Assumptions C93_pointer.
Print Assumptions C93_references.
Print Assumptions C93_total.
Print Assumptions C93_crash_refuted.
Print Assumptions C93_hint_refuted.
Print Assumptions C94_root.
Print Assumptions C94_parent.
Print Assumptions C94_mention_not_parent.
Print Assumptions C94_comment_root.
Print Assumptions C94_comment_parent.
Print Assumptions C94_root_refuted.
Print Assumptions C94_parent_address_refuted.
Print Assumptions C94_comment_refuted.
