(** Protected events: C96. Values kept in tags: C97. *)
From Verif Require Import Base JsonSpec EventModel EventProofs TagsModel FilterModel JLexModel JLexProofs JsonEventProofs EnvelopeModel EnvelopeProofs ScanProofs MetaModel.
Import ListNotations.
Local Open Scope nat_scope.

(** * C96. The event itself. *)
Theorem C96_protected e : is_protected e = true <-> In [B "-"] (ev_tags e).
Proof.
  unfold is_protected. rewrite existsb_exists. split.
  - intros (t & I & E). destruct t as [|x [|y t]]; try discriminate. apply seqb_eq in E. subst. exact I.
  - intro I. exists [B "-"]. split; [exact I|reflexivity].
Qed.

(** ** Occurrences *)
Definition here (p s : str) (k : nat) : Prop := has_prefix (skipn k s) p = true.
Definition misses (p a r : str) : Prop := forall k, k < length a -> ~ here p (a ++ r) k.
Lemma index_some s p n : index s p = Some n -> here p s n /\ forall k, k < n -> ~ here p s k.
Proof.
  revert n. induction s as [|c s IH]; intros n H; cbn [index] in H.
  - destruct (has_prefix [] p) eqn:E; [|discriminate]. assert (n = 0) as -> by congruence. split; [exact E|intros; lia].
  - destruct (has_prefix (c :: s) p) eqn:E; [assert (n = 0) as -> by congruence; split; [exact E|intros; lia]|].
    destruct (index s p) as [m|]; [|discriminate]. cbn in H. assert (n = S m) as -> by congruence. destruct (IH m eq_refl) as [I1 I2]. split; [exact I1|].
    intros [|k] L; [unfold here; cbn [skipn]; congruence|]. apply (I2 k). lia.
Qed.
Lemma index_none s p : index s p = None -> forall k, k <= length s -> ~ here p s k.
Proof.
  induction s as [|c s IH]; intros H k L; cbn [index] in H.
  - destruct (has_prefix [] p) eqn:E; [discriminate|]. unfold here. rewrite skipn_nil. congruence.
  - destruct (has_prefix (c :: s) p) eqn:E; [discriminate|]. destruct (index s p); [discriminate|]. destruct k as [|k]; [unfold here; cbn [skipn]; congruence|]. apply (IH eq_refl k). cbn in L. lia.
Qed.
Lemma misses_app p a b r : misses p a (b ++ r) -> misses p b r -> misses p (a ++ b) r.
Proof.
  intros H1 H2 k L. rewrite app_length in L. rewrite <- app_assoc. destruct (Nat.ltb_spec k (length a)) as [X|X]; [apply H1, X|].
  specialize (H2 (k - length a) ltac:(lia)). unfold here in *. rewrite skipn_app, (skipn_all2 a) by lia. exact H2.
Qed.
Lemma misses_nil p r : misses p [] r.
Proof. intros k L. cbn in L. lia. Qed.
Lemma misses_cons p c a r : has_prefix (c :: a ++ r) p = false -> misses p a r -> misses p (c :: a) r.
Proof. intros H1 H2 [|k] L; [unfold here; cbn [skipn app]; congruence|]. apply (H2 k). cbn in L. lia. Qed.
Lemma misses_char d p a r : forallb (fun c => negb (ceqb c d)) a = true -> misses (d :: p) a r.
Proof.
  induction a as [|c a IH]; intro H; [apply misses_nil|]. cbn [forallb] in H. apply andb_prop in H. destruct H as [H1 H2]. apply misses_cons; [|apply IH, H2].
  cbn [has_prefix]. apply negb_true_iff in H1. rewrite (eqb_ceqb d c), (ceqb_sym d c), H1. reflexivity.
Qed.
(** ** No protected tag, no match *)
Lemma skip_dash1 c r a : ceqb c "["%char = false -> misses dash a r -> misses dash (c :: a) r.
Proof. intros H. apply misses_cons. unfold dash. cbn [B list_ascii_of_string has_prefix]. rewrite (eqb_ceqb "[" c), (ceqb_sym "[" c), H. reflexivity. Qed.
Definition not_minus (r : str) : Prop := match r with c :: _ => ceqb c "-"%char = false | [] => True end.
Lemma body_dash t v : enc_chars t v -> forall r, not_minus r -> misses dash (t ++ [quote]) r.
Proof.
  intros H r Hr. induction H as [|t v t' v' H1 H2 IH].
  - cbn [app]. apply skip_dash1; [reflexivity|apply misses_nil].
  - rewrite <- app_assoc. destruct H1 as [c H1 H3 H4|e v H|a b c d cp H1 H3]; cbn [app].
    + destruct (ceqb c "["%char) eqn:E; [|apply skip_dash1; assumption].
      apply misses_cons; [|exact IH]. unfold dash. cbn [B list_ascii_of_string has_prefix]. rewrite (eqb_ceqb "[" c), (ceqb_sym "[" c), E. cbn [andb].
      pose proof (body_head _ _ H2) as Hd. destruct t' as [|x t'].
      * cbn [app]. change ("034" =? quote)%char with true. cbn [andb]. destruct r as [|y r]; [reflexivity|]. rewrite (eqb_ceqb "-" y), (ceqb_sym "-" y). cbn in Hr. rewrite Hr. reflexivity.
      * cbn [app]. assert (X : ("034" =? x)%char = false) by (rewrite eqb_ceqb; apply ceqb_neq; intro Q; apply Hd; rewrite <- Q; reflexivity). rewrite X. reflexivity.
    + apply skip_dash1; [reflexivity|]. apply skip_dash1; [apply (simple_lbr _ _ H)|exact IH].
    + destruct (hex4_some _ _ _ _ _ H1) as (n1 & n2 & n3 & n4 & Q1 & Q2 & Q3 & Q4).
      apply skip_dash1; [reflexivity|]. apply skip_dash1; [reflexivity|]. apply skip_dash1; [eapply hex_val_lbr; eassumption|]. apply skip_dash1; [eapply hex_val_lbr; eassumption|].
      apply skip_dash1; [eapply hex_val_lbr; eassumption|]. apply skip_dash1; [eapply hex_val_lbr; eassumption|exact IH].
Qed.
Lemma string_dash s r : utf8_text s -> not_minus r -> misses dash (jw_string s) r.
Proof. intros H Hr. unfold jw_string. apply skip_dash1; [reflexivity|]. apply (body_dash _ s (jw_chars_enc s H)), Hr. Qed.
Lemma tails_dash l r : Forall utf8_text l -> not_minus r -> misses dash (tails (map jw_string l)) r.
Proof.
  intros H Hr. induction H as [|s l H1 H2 IH]; [apply misses_nil|]. cbn [map]. rewrite tails_cons. apply skip_dash1; [reflexivity|]. apply misses_app; [|exact IH].
  apply string_dash; [exact H1|]. destruct l; [exact Hr|reflexivity].
Qed.
Lemma not_minus_item s r : utf8_text s -> s <> B "-" -> has_prefix (jw_chars s ++ quote :: r) (B "-""") = false.
Proof.
  intros H N. pose proof (jw_chars_enc s H) as E. destruct (jw_chars s) as [|c t] eqn:J; [reflexivity|].
  cbn [app B list_ascii_of_string has_prefix]. destruct (Ascii.eqb_spec "-" c) as [<-|X]; [|reflexivity]. cbn [andb].
  inversion E as [|t1 v1 t2 v2 E1 E2 Q1 Q2]; subst. destruct E1 as [c H1 H3 H4|e v H1|a b c d cp H1 H3]; try discriminate Q1.
  injection Q1 as -> ->. pose proof (body_head _ _ E2) as Hd. destruct t as [|x t].
  - inversion E2 as [X1 X2|? ? ? ? Z1 Z2 Z3]; [exfalso; apply N; subst; reflexivity|destruct Z1; discriminate Z3].
  - cbn [app]. destruct (Ascii.eqb_spec "034" x) as [<-|]; [exfalso; apply Hd; reflexivity|reflexivity].
Qed.
Lemma tag_dash t r : Forall utf8_text t -> t <> [B "-"] -> not_minus r -> misses dash (jw_strings t) r.
Proof.
  intros H N Hr. unfold jw_strings, jw_array. destruct H as [|s l H1 H2].
  - cbn [map comma_sep app]. apply misses_cons; [reflexivity|]. apply skip_dash1; [reflexivity|apply misses_nil].
  - cbn [map]. rewrite comma_sep_cons. apply misses_cons.
    + unfold jw_string at 1. cbn [app]. repeat (rewrite <- app_assoc; cbn [app]). unfold dash.
      change (has_prefix ("["%char :: quote :: ?x) (B "[""-""]")) with (has_prefix x (B "-""" ++ B "]")).
      destruct (str_eq_dec s (B "-")) as [->|Ns].
      * destruct l as [|x l]; [congruence|]. reflexivity.
      * pose proof (not_minus_item s (tails (map jw_string l) ++ "]"%char :: r) H1 Ns) as Q. destruct (has_prefix _ (B "-""" ++ B "]")) eqn:X; [|reflexivity]. exfalso.
        apply has_prefix_spec in X. destruct X as [z X]. rewrite X, <- app_assoc, has_prefix_app in Q. discriminate.
    + rewrite <- app_assoc. apply misses_app.
      * apply string_dash; [exact H1|]. destruct l; reflexivity.
      * apply misses_app; [|apply skip_dash1; [reflexivity|apply misses_nil]]. apply tails_dash; [exact H2|reflexivity].
Qed.
Lemma tag_tails_dash ts r : Forall (Forall utf8_text) ts -> ~ In [B "-"] ts -> not_minus r -> misses dash (tails (map jw_strings ts)) r.
Proof.
  intros H N Hr. induction H as [|t ts H1 H2 IH]; [apply misses_nil|]. cbn [map]. rewrite tails_cons. apply skip_dash1; [reflexivity|]. apply misses_app; [|apply IH; intro I; apply N; right; exact I].
  apply tag_dash; [exact H1|intros ->; apply N; left; reflexivity|]. destruct ts; [exact Hr|reflexivity].
Qed.
Lemma tags_dash ts r : Forall (Forall utf8_text) ts -> ~ In [B "-"] ts -> not_minus r -> misses dash (jw_array (map jw_strings ts)) r.
Proof.
  intros H N Hr. unfold jw_array. destruct H as [|t ts H1 H2].
  - cbn [map comma_sep app]. apply misses_cons; [reflexivity|]. apply skip_dash1; [reflexivity|apply misses_nil].
  - cbn [map]. rewrite comma_sep_cons. apply misses_cons.
    + unfold jw_strings at 1, jw_array at 1. cbn [app]. reflexivity.
    + rewrite <- app_assoc. apply misses_app; [apply tag_dash; [exact H1|intros ->; apply N; left; reflexivity|destruct ts; reflexivity]|].
      apply misses_app; [|apply skip_dash1; [reflexivity|apply misses_nil]]. apply tag_tails_dash; [exact H2|intro I; apply N; right; exact I|reflexivity].
Qed.
(** The text before and after the tags of an event as it is written *)
Definition key_opt (k s : str) : str := match s with [] => [] | _ => k ++ quote :: s ++ [quote] end.
Definition head_text (e : event) : str :=
  B "{" ++ B """kind"":" ++ dec_Z (ev_kind e) ++ key_opt (B ",""id"":") (ev_id e) ++ key_opt (B ",""pubkey"":") (ev_pubkey e) ++ B ",""created_at"":" ++ dec_Z (ev_created_at e) ++ B ",".
Definition tail_text (e : event) : str := B ",""content"":" ++ jw_string (ev_content e) ++ jw_opt (B ",""sig"":") (ev_sig e) ++ B "}".
Definition hexy (s : str) : Prop := forallb is_lower_hex_char s = true.
Lemma event_text e : hexy (ev_id e) -> hexy (ev_pubkey e) -> encode_event e = head_text e ++ B """tags"":" ++ jw_array (map jw_strings (ev_tags e)) ++ tail_text e.
Proof.
  intros H1 H2. assert (K : forall k s, hexy s -> jw_opt k s = key_opt k s). { intros k s H. unfold jw_opt, key_opt, jw_string. destruct s; [reflexivity|]. rewrite hex_jw by exact H. reflexivity. }
  unfold encode_event, head_text, tail_text. rewrite !K by assumption. rewrite <- !app_assoc. reflexivity.
Qed.
Lemma head_plain d e : hexy (ev_id e) -> hexy (ev_pubkey e) -> d = "["%char \/ d = "]"%char -> forallb (fun c => negb (ceqb c d)) (head_text e) = true.
Proof.
  intros H1 H2 D. assert (HX : forall s, hexy s -> forallb (fun c => negb (ceqb c d)) s = true).
  { intros s H. unfold hexy in H. rewrite forallb_forall in *. intros x I. specialize (H x I).
    assert (P : forall c, (if is_lower_hex_char c then negb (ceqb c "["%char) && negb (ceqb c "]"%char) else true) = true) by (apply bytes_forallb; vm_compute; reflexivity).
    specialize (P x). rewrite H in P. apply andb_prop in P. destruct D as [-> | ->]; apply P. }
  assert (K : forall k s, hexy s -> forallb (fun c => negb (ceqb c d)) k = true -> forallb (fun c => negb (ceqb c d)) (key_opt k s) = true).
  { intros k s H Hk. unfold key_opt. destruct s as [|x s]; [reflexivity|]. rewrite forallb_app, Hk. change (quote :: (x :: s) ++ [quote]) with ([quote] ++ (x :: s) ++ [quote]). rewrite !forallb_app, (HX _ H). destruct D as [-> | ->]; reflexivity. }
  unfold head_text. rewrite !forallb_app. rewrite !K; try assumption; try (destruct D as [-> | ->]; reflexivity). rewrite !dec_Z_skip by (destruct D as [-> | ->]; reflexivity). destruct D as [-> | ->]; reflexivity.
Qed.
Lemma tail_dash e : utf8_text (ev_content e) -> utf8_text (ev_sig e) -> misses dash (tail_text e) [].
Proof.
  intros H1 H2. unfold tail_text. apply misses_app; [apply (misses_char "["%char); reflexivity|]. apply misses_app; [apply string_dash; [exact H1|]|].
  - unfold jw_opt. destruct (ev_sig e); reflexivity.
  - apply misses_app; [|apply (misses_char "["%char); reflexivity]. unfold jw_opt. destruct (ev_sig e) as [|x s] eqn:E; [apply misses_nil|]. apply misses_app; [apply (misses_char "["%char); reflexivity|]. apply string_dash; [exact H2|reflexivity].
Qed.
(** A repost of an event as it is written is never taken for protected when the event is not. *)
Theorem C96_embedded_sound e inner : text_event inner -> hexy (ev_id inner) -> hexy (ev_pubkey inner) -> ev_content e = encode_event inner ->
  has_embedded_protected e = true -> is_protected inner = true.
Proof.
  intros (_ & _ & Tc & Ts & Tt & _) Hi Hp C H. apply C96_protected. destruct (in_dec (list_eq_dec str_eq_dec) [B "-"] (ev_tags inner)) as [I|N]; [exact I|exfalso].
  unfold has_embedded_protected in H. destruct (_ || _); [|discriminate]. destruct (index (ev_content e) tags_key); [|discriminate]. destruct (index (ev_content e) (B "]]")); [|discriminate].
  destruct (index (ev_content e) dash) as [pi|] eqn:E; [|discriminate]. clear H. rewrite C, event_text in E by assumption. apply index_some in E. destruct E as [E _].
  assert (M : misses dash (head_text inner ++ B """tags"":" ++ jw_array (map jw_strings (ev_tags inner)) ++ tail_text inner) []).
  { apply misses_app; [apply (misses_char "["%char); apply head_plain; auto|]. apply misses_app; [apply (misses_char "["%char); reflexivity|]. apply misses_app; [apply tags_dash; [exact Tt|exact N|reflexivity]|apply tail_dash; assumption]. }
  specialize (M pi). rewrite app_nil_r in M. apply M; [|exact E]. unfold here in E. destruct (Nat.ltb_spec pi (length (head_text inner ++ B """tags"":" ++ jw_array (map jw_strings (ev_tags inner)) ++ tail_text inner))); [assumption|]. rewrite skipn_all2 in E by lia. discriminate.
Qed.
(** ** Closing brackets *)
Definition rb (c : ascii) : bool := ceqb c "]"%char.
Fixpoint single (p : bool) (s : str) : bool :=
  match s with [] => true | c :: r => if rb c then negb p && single true r else single false r end.
Fixpoint ends (p : bool) (s : str) : bool := match s with [] => p | c :: r => ends (rb c) r end.
Lemma single_app a b p : single p (a ++ b) = single p a && single (ends p a) b.
Proof. revert p. induction a as [|c a IH]; intro p; [reflexivity|]. cbn [app single ends]. destruct (rb c); rewrite IH; [rewrite andb_assoc|]; reflexivity. Qed.
Lemma ends_app a b p : ends p (a ++ b) = ends (ends p a) b.
Proof. revert p. induction a as [|c a IH]; intro p; [reflexivity|]. cbn [app ends]. apply IH. Qed.
Lemma single_none a p : forallb (fun c => negb (rb c)) a = true -> single p a = true.
Proof. revert p. induction a as [|c a IH]; intros p H; [reflexivity|]. cbn [forallb single] in *. apply andb_prop in H. destruct H as [H1 H2]. apply negb_true_iff in H1. rewrite H1. apply IH, H2. Qed.
Lemma ends_none a p : forallb (fun c => negb (rb c)) a = true -> a <> [] -> ends p a = false.
Proof.
  intros H N. destruct a as [|c a]; [congruence|]. clear N. revert c p H. induction a as [|d a IH]; intros c p H; cbn [forallb] in H; apply andb_prop in H; destruct H as [H1 H2]; apply negb_true_iff in H1.
  - cbn [ends]. exact H1.
  - exact (IH d (rb c) H2).
Qed.
Lemma single_enc t v : enc_chars t v -> forall p, single p v = true -> single p t = true.
Proof.
  assert (HV : forall c n, hex_val c = Some n -> rb c = false).
  { assert (G : forall c, (match hex_val c with Some _ => negb (rb c) | None => true end) = true) by (apply bytes_forallb; vm_compute; reflexivity). intros c n H. specialize (G c). rewrite H in G. apply negb_true_iff, G. }
  assert (SE : forall c v, simple_escape c = Some v -> rb c = false /\ rb v = false).
  { assert (G : forall c, (match simple_escape c with Some v => negb (rb c) && negb (rb v) | None => true end) = true) by (apply bytes_forallb; vm_compute; reflexivity). intros c w H. specialize (G c). rewrite H in G. apply andb_prop in G. split; apply negb_true_iff, G. }
  assert (WEAK : forall s, single true s = true -> forall p, single p s = true). { intros s H p. destruct s as [|c s]; [reflexivity|]. cbn [single] in *. destruct (rb c); [discriminate|exact H]. }
  intro H. induction H as [|t v t' v' H1 H2 IH]; intros p S; [exact S|]. rewrite single_app in S |- *. apply andb_prop in S. destruct S as [S1 S2]. apply andb_true_intro. destruct H1 as [c H1 H3 H4|e v H|a b c d cp H1 H3].
  - split; [exact S1|apply IH, S2].
  - destruct (SE _ _ H) as [E1 E2]. cbn [single ends app] in *. change (rb bslash) with false. rewrite E1. split; [reflexivity|]. apply IH. rewrite E2 in S2. exact S2.
  - destruct (hex4_some _ _ _ _ _ H1) as (n1 & n2 & n3 & n4 & Q1 & Q2 & Q3 & Q4). cbn [single ends app]. change (rb bslash) with false. change (rb "u"%char) with false.
    rewrite (HV _ _ Q1), (HV _ _ Q2), (HV _ _ Q3), (HV _ _ Q4). split; [reflexivity|]. apply IH. destruct (ends p (utf8 cp)); [apply WEAK|]; exact S2.
Qed.
Lemma single_string s p : utf8_text s -> single false s = true -> single p (jw_string s) = true /\ ends p (jw_string s) = false.
Proof.
  intros H S. unfold jw_string. split.
  - change (quote :: jw_chars s ++ [quote]) with ([quote] ++ jw_chars s ++ [quote]). rewrite !single_app. change (single p [quote]) with true. change (ends p [quote]) with false. rewrite (single_enc _ _ (jw_chars_enc s H) false S). reflexivity.
  - cbn [ends]. rewrite ends_app. reflexivity.
Qed.
Lemma single_tails l : Forall utf8_text l -> Forall (fun s => single false s = true) l -> forall p, single p (tails (map jw_string l)) = true /\ (p = false -> ends p (tails (map jw_string l)) = false).
Proof.
  induction 1 as [|s l H1 H2 IH]; intros F p; [split; auto|]. inversion F as [|x y F1 F2]; subst. cbn [map]. rewrite tails_cons. cbn [single ends]. change (rb ","%char) with false.
  destruct (single_string s false H1 F1) as [A1 A2]. rewrite single_app, ends_app, A1, A2. destruct (IH F2 false) as [B1 B2]. rewrite B1, B2 by reflexivity. auto.
Qed.
Definition calm_tag (t : tag) : Prop := Forall (fun s => single false s = true) t.
Lemma single_tag t : Forall utf8_text t -> calm_tag t -> forall p, single p (jw_strings t) = true /\ ends p (jw_strings t) = true.
Proof.
  intros H F p. unfold jw_strings, jw_array. change ("["%char :: comma_sep (map jw_string t) ++ ["]"%char]) with (["["%char] ++ comma_sep (map jw_string t) ++ ["]"%char]). rewrite !single_app, !ends_app. change (single p ["["%char]) with true. change (ends p ["["%char]) with false.
  assert (X : single false (comma_sep (map jw_string t)) = true /\ ends false (comma_sep (map jw_string t)) = false).
  { destruct H as [|s l H1 H2]; [split; reflexivity|]. inversion F as [|x y F1 F2]; subst. cbn [map]. rewrite comma_sep_cons, single_app, ends_app. destruct (single_string s false H1 F1) as [-> ->]. destruct (single_tails l H2 F2 false) as [-> Z]. rewrite Z by reflexivity. auto. }
  destruct X as [-> ->]. split; reflexivity.
Qed.
Lemma single_tag_tails ts : Forall (Forall utf8_text) ts -> Forall calm_tag ts -> forall p, single p (tails (map jw_strings ts)) = true /\ (ts <> [] -> ends p (tails (map jw_strings ts)) = true).
Proof.
  induction 1 as [|t ts H1 H2 IH]; intros F p; [split; [reflexivity|congruence]|]. inversion F as [|x y F1 F2]; subst. cbn [map]. rewrite tails_cons. cbn [single ends]. change (rb ","%char) with false.
  destruct (single_tag t H1 F1 false) as [A1 A2]. rewrite single_app, ends_app, A1, A2. destruct (IH F2 true) as [B1 B2]. rewrite B1. split; [reflexivity|]. intros _. destruct ts; [reflexivity|apply B2; discriminate].
Qed.
Lemma single_tags ts : Forall (Forall utf8_text) ts -> Forall calm_tag ts -> ts <> [] -> forall p, single p (comma_sep (map jw_strings ts)) = true /\ ends p (comma_sep (map jw_strings ts)) = true.
Proof.
  intros H F N p. destruct H as [|t ts H1 H2]; [congruence|]. inversion F as [|x y F1 F2]; subst. cbn [map]. rewrite comma_sep_cons, single_app, ends_app. destruct (single_tag t H1 F1 p) as [-> ->]. destruct (single_tag_tails ts H2 F2 true) as [-> Z]. split; [reflexivity|]. destruct ts; [reflexivity|apply Z; discriminate].
Qed.
Lemma single_index a p k : single p a = true -> here (B "]]") a k -> False.
Proof.
  revert p k. induction a as [|c a IH]; intros p k S H; [unfold here in H; rewrite skipn_nil in H; discriminate|]. destruct k as [|k].
  - unfold here in H. cbn [skipn] in H. cbn [B list_ascii_of_string has_prefix] in H. destruct a as [|d a]; [rewrite andb_false_r in H; discriminate|]. rewrite (eqb_ceqb "]" c), (eqb_ceqb "]" d), (ceqb_sym "]" c), (ceqb_sym "]" d) in H. cbn [single] in S. unfold rb in S.
    destruct (ceqb c "]"%char); [|discriminate]. destruct (ceqb d "]"%char); [|discriminate]. rewrite andb_false_r in S. discriminate.
  - unfold here in H. cbn [skipn] in H. cbn [single] in S. destruct (rb c); [apply andb_prop in S; destruct S as [_ S]|]; exact (IH _ _ S H).
Qed.
Lemma ends_last a p : a <> [] -> ends p a = true -> exists b, a = b ++ ["]"%char].
Proof.
  intros N H. destruct (exists_last N) as (b & c & ->). rewrite ends_app in H. cbn [ends] in H. unfold rb, ceqb in H. apply Ascii.eqb_eq in H. subst. eauto.
Qed.
Lemma here_within a r k : k + 2 <= length a -> here (B "]]") (a ++ r) k -> here (B "]]") a k.
Proof.
  unfold here. intros L H. rewrite skipn_app in H. replace (k - length a) with 0 in H by lia. cbn [skipn] in H. assert (LL : 2 <= length (skipn k a)) by (rewrite skipn_length; lia). destruct (skipn k a) as [|x [|y s]]; cbn [length] in LL; try lia. exact H.
Qed.
Lemma single_spec s : single false s = true <-> forall a z, s <> a ++ B "]]" ++ z.
Proof.
  split.
  - intros S a z E. apply (single_index s false (length a) S). unfold here. rewrite E, skipn_app, skipn_all, Nat.sub_diag. reflexivity.
  - assert (G : forall s p, (forall a z, s <> a ++ B "]]" ++ z) -> (p = true -> match s with c :: _ => rb c = false | [] => True end) -> single p s = true).
    { clear s. induction s as [|c s IH]; intros p H Hp; [reflexivity|]. assert (H' : forall a z, s <> a ++ B "]]" ++ z) by (intros a z E; apply (H (c :: a) z); rewrite E; reflexivity). cbn [single]. destruct (rb c) eqn:E.
      - destruct p; [specialize (Hp eq_refl); cbn in Hp; congruence|]. cbn [negb andb]. apply IH; [exact H'|]. intros _. destruct s as [|d s]; [exact I|]. destruct (rb d) eqn:E2; [|reflexivity]. exfalso. unfold rb, ceqb in E, E2. apply Ascii.eqb_eq in E, E2. subst. exact (H [] s eq_refl).
      - apply IH; [exact H'|discriminate]. }
    intro H. apply G; [exact H|discriminate].
Qed.
(** And when the event is protected, so is its repost, unless some item of a tag contains "]]". *)
Theorem C96_embedded_complete_partial e inner : text_event inner -> hexy (ev_id inner) -> hexy (ev_pubkey inner) -> ev_content e = encode_event inner -> (ev_kind e = 6 \/ ev_kind e = 16)%Z ->
  (forall t s a z, In t (ev_tags inner) -> In s t -> s <> a ++ B "]]" ++ z) ->
  is_protected inner = true -> has_embedded_protected e = true.
Proof.
  intros (_ & _ & Tc & Ts & Tt & _) Hi Hp C K Q P. apply C96_protected in P.
  assert (F : Forall calm_tag (ev_tags inner)). { apply Forall_forall. intros t It. apply Forall_forall. intros s Is. apply single_spec. intros a z. exact (Q t s a z It Is). }
  unfold has_embedded_protected. assert (KK : (ev_kind e =? 6)%Z || (ev_kind e =? 16)%Z = true) by (destruct K as [-> | ->]; reflexivity). rewrite KK. rewrite C, event_text by assumption.
  set (X := head_text inner). set (ts := ev_tags inner) in *. set (W := jw_array (map jw_strings ts)). set (Z := tail_text inner).
  assert (NE : ts <> []) by (intro E0; rewrite E0 in P; destruct P).
  set (A := X ++ B """tags"":" ++ B "[" ++ comma_sep (map jw_strings ts)).
  assert (EA : X ++ B """tags"":" ++ W ++ Z = A ++ "]"%char :: Z). { unfold A, W, jw_array. rewrite <- !app_assoc. cbn [app]. rewrite <- !app_assoc. reflexivity. }
  assert (SA : single false A = true /\ ends false A = true).
  { unfold A. rewrite !single_app, !ends_app. assert (PX : forallb (fun c => negb (rb c)) X = true) by (apply (head_plain "]"%char); auto). rewrite (single_none X false PX). change (single (ends false X) (B """tags"":")) with true.
    change (ends (ends false X) (B """tags"":")) with false. change (single false (B "[")) with true. change (ends false (B "[")) with false. destruct (single_tags ts Tt F NE false) as [-> ->]. auto. }
  destruct SA as [SA EndA]. assert (NA : A <> []) by (unfold A; destruct X; discriminate). destruct (ends_last A false NA EndA) as [A' EA'].
  (* the dash *)
  apply in_split in P. destruct P as (t1 & t2 & Ets).
  assert (Occ : exists u v, X ++ B """tags"":" ++ W ++ Z = u ++ dash ++ v /\ length u < length A - 1).
  { assert (CS : exists c d, comma_sep (map jw_strings ts) = c ++ dash ++ d).
    { rewrite Ets, map_app. cbn [map]. destruct t1 as [|t0 t1]; [exists [], (tails (map jw_strings t2)); cbn [map app]; rewrite comma_sep_cons; reflexivity|]. cbn [map app]. rewrite comma_sep_cons. exists (jw_strings t0 ++ tails (map jw_strings t1) ++ B ","), (tails (map jw_strings t2)).
      unfold tails. rewrite flat_map_app. cbn [flat_map]. rewrite <- !app_assoc. reflexivity. }
    destruct CS as (c & d & CS). exists (X ++ B """tags"":" ++ B "[" ++ c), (d ++ "]"%char :: Z). split; [rewrite EA; unfold A; rewrite CS, <- !app_assoc; reflexivity|]. unfold A. rewrite CS, !app_length. change (length dash) with 5. lia. }
  destruct Occ as (u & v & Eu & Lu).
  destruct (index (X ++ B """tags"":" ++ W ++ Z) tags_key) as [tidx|] eqn:IT.
  2:{ exfalso. apply (index_none _ _ IT (length X)); [rewrite app_length; lia|]. unfold here. rewrite skipn_app, skipn_all, Nat.sub_diag. reflexivity. }
  assert (LT : tidx <= length X). { apply index_some in IT. destruct IT as [_ IT]. destruct (Nat.leb_spec tidx (length X)) as [L|L]; [exact L|exfalso]. apply (IT (length X) L). unfold here. rewrite skipn_app, skipn_all, Nat.sub_diag. reflexivity. }
  destruct (index (X ++ B """tags"":" ++ W ++ Z) (B "]]")) as [eidx|] eqn:IE.
  2:{ exfalso. apply (index_none _ _ IE (length A')); [rewrite EA, EA', !app_length; lia|]. unfold here. rewrite EA, EA', <- app_assoc, skipn_app, skipn_all, Nat.sub_diag. reflexivity. }
  assert (LE : length A <= eidx + 1). { apply index_some in IE. destruct IE as [IE _]. destruct (Nat.leb_spec (length A) (eidx + 1)) as [L|L]; [exact L|exfalso]. rewrite EA in IE. apply (single_index A false eidx SA). eapply here_within; [|exact IE]. lia. }
  destruct (index (X ++ B """tags"":" ++ W ++ Z) dash) as [pidx|] eqn:IP.
  2:{ exfalso. rewrite Eu in IP. apply (index_none _ _ IP (length u)); [rewrite app_length; lia|]. unfold here. rewrite skipn_app, skipn_all, Nat.sub_diag. exact (has_prefix_app dash v). }
  apply index_some in IP. destruct IP as [IP1 IP2].
  assert (LP : pidx <= length u). { destruct (Nat.leb_spec pidx (length u)) as [L|L]; [exact L|exfalso]. apply (IP2 (length u) L). rewrite Eu. unfold here. rewrite skipn_app, skipn_all, Nat.sub_diag. exact (has_prefix_app dash v). }
  assert (LX : length X < pidx). { assert (M : misses dash (X ++ B """tags"":") (W ++ Z)) by (apply misses_app; [apply (misses_char "["%char); apply head_plain; auto|apply (misses_char "["%char); reflexivity]). destruct (Nat.ltb_spec (length X) pidx) as [L|L]; [exact L|exfalso]. apply (M pidx); [rewrite app_length; change (length (B """tags"":")) with 7; lia|]. rewrite <- app_assoc. exact IP1. }
  apply andb_true_intro. split; apply Nat.ltb_lt; lia.
Qed.
Definition demo_inner (tags : list tag) : event := mkEvent (B "00") (B "ab") 5 1 tags (B "hello [""-""]") (B "cd").
Definition repost (inner : str) : event := mkEvent [] [] 0 6 [] inner [].
Example C96_applies : has_embedded_protected (repost (encode_event (demo_inner [[B "e"; B "x"]; [B "-"]]))) = true /\ has_embedded_protected (repost (encode_event (demo_inner [[B "e"; B "["]; [B "-"; B "-"]]))) = false.
Proof. split; vm_compute; reflexivity. Qed.
(** False without the condition: an item "]]" before it hides the protection. *)
Theorem C96_hidden_refuted : exists inner, is_protected inner = true /\ has_embedded_protected (repost (encode_event inner)) = false.
Proof. exists (demo_inner [[B "alt"; B "]]"]; [B "-"]]). split; vm_compute; reflexivity. Qed.
(** False for other spellings of the same event: a space is enough, or the content before the tags. *)
Theorem C96_spelling_refuted : exists text inner, decode_event text = Ok inner /\ is_protected inner = true /\ has_embedded_protected (repost text) = false.
Proof. exists (B "{""kind"":1,""tags"": [[""-""]],""content"":""""}"). eexists. split; [vm_compute; reflexivity|]. split; vm_compute; reflexivity. Qed.

(** * C97. Spec: the first tag with this name and a value. *)
Definition has_value (name : str) (t : tag) : Prop := exists v r, t = name :: v :: r.
Definition first_valued (name : str) (ts : list tag) (v : str) : Prop := exists a r b, ts = a ++ (name :: v :: r) :: b /\ Forall (fun t => ~ has_value name t) a.
Lemma first_value_spec name ts : (exists v, first_valued name ts v /\ first_value name ts = v) \/ (Forall (fun t => ~ has_value name t) ts /\ first_value name ts = []).
Proof.
  induction ts as [|t ts IH]; [right; split; [constructor|reflexivity]|]. cbn [first_value].
  assert (SKIP : ~ has_value name t -> (exists v, first_valued name (t :: ts) v /\ first_value name ts = v) \/ (Forall (fun t => ~ has_value name t) (t :: ts) /\ first_value name ts = [])).
  { intro N. destruct IH as [(v & (a & r & b & -> & F) & E)|[F E]]; [left; exists v; split; [exists (t :: a), r, b; split; [reflexivity|constructor; assumption]|exact E]|right; split; [constructor; assumption|exact E]]. }
  destruct t as [|k [|v t]]; try (apply SKIP; intros (? & ? & E); discriminate). destruct (seqb_spec k name) as [->|N]; [|apply SKIP; intros (? & ? & E); congruence].
  left. exists v. split; [exists [], t, ts; split; [reflexivity|constructor]|reflexivity].
Qed.
Theorem C97_subject ts : (exists v, first_valued (B "subject") ts v /\ get_subject ts = v) \/ (Forall (fun t => ~ has_value (B "subject") t) ts /\ get_subject ts = []).
Proof. apply first_value_spec. Qed.
Theorem C97_alt e : (exists v, first_valued (B "alt") (ev_tags e) v /\ get_alt e = v) \/ (Forall (fun t => ~ has_value (B "alt") t) (ev_tags e) /\ get_alt e = []).
Proof. apply first_value_spec. Qed.
Theorem C97_expiration ts : (exists v, first_valued (B "expiration") ts v /\ get_expiration ts = match parse_int v with Some n => n | None => (-1)%Z end) \/
  (Forall (fun t => ~ has_value (B "expiration") t) ts /\ get_expiration ts = (-1)%Z).
Proof.
  assert (E : get_expiration ts = match first_value (B "expiration") ts with [] => (-1)%Z | v => match parse_int v with Some n => n | None => (-1)%Z end end).
  { induction ts as [|[|k [|v t]] ts IH]; try exact IH; [reflexivity|]. cbn [get_expiration first_value]. destruct (seqb k (B "expiration")); [|exact IH]. destruct v; reflexivity. }
  rewrite E. destruct (first_value_spec (B "expiration") ts) as [(v & F & ->)|[F ->]]; [left; exists v; split; [exact F|destruct v; reflexivity]|right; auto].
Qed.
Corollary C97_expires ts z a b r : ts = a ++ (B "expiration" :: dec_Z z :: r) :: b -> Forall (fun t => ~ has_value (B "expiration") t) a -> (min_int64 <= z <= max_int64)%Z -> get_expiration ts = z.
Proof.
  intros E F R. assert (X : first_value (B "expiration") ts = dec_Z z). { subst ts. induction F as [|t a N F IH]; cbn [app first_value]; [rewrite seqb_refl; reflexivity|]. destruct t as [|k [|v t]]; try exact IH. destruct (seqb_spec k (B "expiration")) as [->|]; [exfalso; apply N; eexists _, _; reflexivity|exact IH]. }
  destruct (C97_expiration ts) as [(v & V & ->)|[G _]].
  - assert (v = dec_Z z) as ->; [|rewrite parse_int_dec_Z by exact R; reflexivity]. rewrite <- X. destruct V as (a2 & r2 & b2 & -> & F2). clear - F2. induction F2 as [|t a N F IH]; cbn [app first_value]; [rewrite seqb_refl; reflexivity|]. destruct t as [|k [|w t]]; try exact IH. destruct (seqb_spec k (B "expiration")) as [->|]; [exfalso; apply N; eexists _, _; reflexivity|exact IH].
  - exfalso. subst ts. apply Forall_elt in G. apply G. eexists _, _. reflexivity.
Qed.
(** False: an answer of -1 means there is no readable time. And an unreadable first tag hides a good second. *)
Theorem C97_expiration_refuted : exists ts ts', get_expiration ts = (-1)%Z /\ In [B "expiration"; B "-1"] ts /\ get_expiration ts' = (-1)%Z /\ In [B "expiration"; B "1700000000"] ts'.
Proof. exists [[B "expiration"; B "-1"]], [[B "expiration"; B "soon"]; [B "expiration"; B "1700000000"]]. cbn [In]. repeat split; auto. Qed.

(** Media descriptions. Spec: the last item that names the field. *)
Definition field_item (f : str) (item v : str) : Prop := item = f ++ " "%char :: v.
Definition last_item (f : str) (l : list str) (v : str) : Prop := exists a b, l = a ++ (f ++ " "%char :: v) :: b /\ forall w, ~ In (f ++ " "%char :: w) b.
Definition field_is (f : str) (l : list str) (v : str) : Prop := last_item f l v \/ ((forall w, ~ In (f ++ " "%char :: w) l) /\ v = []).
Definition good_dim (v : str) (x y : Z) : Prop := exists a b, v = a ++ "x"%char :: b /\ ~ In "x"%char a /\ parse_int a = Some x /\ parse_int b = Some y.
Definition dims_are (l : list str) (x y : Z) : Prop := (exists v, last_item (B "dim") l v /\ good_dim v x y) \/ ((forall w, ~ In (B "dim" ++ " "%char :: w) l) /\ x = 0%Z /\ y = 0%Z).
Definition bad_item (i : str) : Prop := exists v, i = B "dim" ++ " "%char :: v /\ forall x y, ~ good_dim v x y.
Definition describes (t : tag) (m : imeta) : Prop :=
  field_is (B "url") (tl t) (im_url m) /\ field_is (B "alt") (tl t) (im_alt m) /\ field_is (B "blurhash") (tl t) (im_blurhash m) /\ dims_are (tl t) (im_width m) (im_height m).
Definition media_tag (t : tag) : Prop := exists a b r, t = B "imeta" :: a :: b :: r.
Lemma cut_at_spec c s : match cut_at c s with Some (a, b) => s = a ++ c :: b /\ ~ In c a | None => ~ In c s end.
Proof.
  induction s as [|x s IH]; cbn [cut_at]; [intros []|]. destruct (ceqb x c) eqn:E; [apply Ascii.eqb_eq in E; subst; split; [reflexivity|intros []]|]. assert (x <> c) by (intros ->; unfold ceqb in E; rewrite Ascii.eqb_refl in E; discriminate).
  destruct (cut_at c s) as [[a b]|]; [destruct IH as [-> N]; split; [reflexivity|intros [?|?]; auto]|intros [?|?]; auto].
Qed.
Lemma cut_at_app c a b : ~ In c a -> cut_at c (a ++ c :: b) = Some (a, b).
Proof.
  induction a as [|x a IH]; intro N; cbn [app cut_at]; [unfold ceqb; rewrite Ascii.eqb_refl; reflexivity|]. destruct (ceqb x c) eqn:E; [apply Ascii.eqb_eq in E; subst; exfalso; apply N; left; reflexivity|]. rewrite IH; [reflexivity|]. intro I. apply N. right. exact I.
Qed.
Lemma good_dim_spec v x y : good_dim v x y <-> match cut_at "x"%char v with Some (a, b) => parse_int a = Some x /\ parse_int b = Some y | None => False end.
Proof.
  split.
  - intros (a & b & -> & N & P). rewrite cut_at_app by exact N. exact P.
  - pose proof (cut_at_spec "x"%char v) as C. destruct (cut_at "x"%char v) as [[a b]|]; [|intros []]. destruct C as [-> N]. intros [P Q]. exists a, b. auto.
Qed.
Definition updates (i : str) (m m' : imeta) : Prop :=
  (forall v, i = B "url" ++ " "%char :: v -> im_url m' = v) /\ ((forall v, i <> B "url" ++ " "%char :: v) -> im_url m' = im_url m) /\
  (forall v, i = B "alt" ++ " "%char :: v -> im_alt m' = v) /\ ((forall v, i <> B "alt" ++ " "%char :: v) -> im_alt m' = im_alt m) /\
  (forall v, i = B "blurhash" ++ " "%char :: v -> im_blurhash m' = v) /\ ((forall v, i <> B "blurhash" ++ " "%char :: v) -> im_blurhash m' = im_blurhash m) /\
  (forall v, i = B "dim" ++ " "%char :: v -> good_dim v (im_width m') (im_height m')) /\ ((forall v, i <> B "dim" ++ " "%char :: v) -> im_width m' = im_width m /\ im_height m' = im_height m).
Lemma item_spec m i : match imeta_item m i with Some m' => ~ bad_item i /\ updates i m m' | None => bad_item i end.
Proof.
  assert (SP : forall f v k w, ~ In " "%char f -> ~ In " "%char k -> f ++ " "%char :: v = k ++ " "%char :: w -> f = k /\ v = w).
  { intros f v k w N1 N2 E. assert (X := cut_at_app " "%char f v N1). rewrite E, cut_at_app in X by exact N2. injection X as -> ->. auto. }
  assert (NS : forall s, (s = B "url" \/ s = B "alt" \/ s = B "blurhash" \/ s = B "dim") -> ~ In " "%char s) by (intros s [->|[->|[->| ->]]]; cbn; intuition discriminate).
  unfold imeta_item. pose proof (cut_at_spec " "%char i) as C. destruct (cut_at " "%char i) as [[k v]|].
  - destruct C as [-> N].
    assert (X : forall f w, (f = B "url" \/ f = B "alt" \/ f = B "blurhash" \/ f = B "dim") -> k ++ " "%char :: v = f ++ " "%char :: w -> f = k /\ v = w) by (intros f w F E; destruct (SP k v f w N (NS f F) E); auto).
    assert (NB : k <> B "dim" -> ~ bad_item (k ++ " "%char :: v)) by (intros Nk (w & E & _); apply (X (B "dim")) in E; [destruct E; congruence|auto]).
    assert (OTHER : forall f w, (f = B "url" \/ f = B "alt" \/ f = B "blurhash" \/ f = B "dim") -> f <> k -> k ++ " "%char :: v <> f ++ " "%char :: w) by (intros f w F Nf E; apply X in E; [destruct E; congruence|exact F]).
    destruct (seqb_spec k (B "url")) as [->|N1]; [|destruct (seqb_spec k (B "alt")) as [->|N2]; [|destruct (seqb_spec k (B "blurhash")) as [->|N3]; [|destruct (seqb_spec k (B "dim")) as [->|N4]]]].
    + split; [apply NB; discriminate|]. unfold updates. cbn [im_url im_alt im_blurhash im_width im_height]. repeat split; try (intros w E; exfalso; revert E; apply OTHER; [auto|discriminate]).
      * intros w E. apply X in E; [apply E|auto].
      * intro H. exfalso. exact (H v eq_refl).
    + split; [apply NB; discriminate|]. unfold updates. cbn [im_url im_alt im_blurhash im_width im_height]. repeat split; try (intros w E; exfalso; revert E; apply OTHER; [auto|discriminate]).
      * intros w E. apply X in E; [apply E|auto].
      * intro H. exfalso. exact (H v eq_refl).
    + split; [apply NB; discriminate|]. unfold updates. cbn [im_url im_alt im_blurhash im_width im_height]. repeat split; try (intros w E; exfalso; revert E; apply OTHER; [auto|discriminate]).
      * intros w E. apply X in E; [apply E|auto].
      * intro H. exfalso. exact (H v eq_refl).
    + pose proof (fun x y => proj1 (good_dim_spec v x y)) as GD. pose proof (fun x y => proj2 (good_dim_spec v x y)) as GD2. destruct (cut_at "x"%char v) as [[a b]|].
      2:{ exists v. split; [reflexivity|]. intros x y G. exact (GD x y G). }
      destruct (parse_int a) as [x|] eqn:P1; [|exists v; split; [reflexivity|]; intros x y G; destruct (GD x y G); discriminate].
      destruct (parse_int b) as [y|] eqn:P2; [|exists v; split; [reflexivity|]; intros x' y G; destruct (GD x' y G); discriminate].
      assert (G : good_dim v x y) by (apply GD2; auto). split; [intros (w & E & H); apply (X (B "dim")) in E; [|auto]; destruct E as [_ <-]; exact (H x y G)|].
      unfold updates. cbn [im_url im_alt im_blurhash im_width im_height]. repeat split; try (intros w E; exfalso; revert E; apply OTHER; [auto|discriminate]).
      * intros w E. apply X in E; [|auto]. destruct E as [_ <-]. exact G.
      * intros. exfalso. eapply H. reflexivity.
      * intros. exfalso. eapply H. reflexivity.
    + split; [apply NB, N4|]. unfold updates. repeat split; try (intros w E; exfalso; revert E; apply OTHER; [auto|congruence]).
  - assert (NI : forall f w, i <> f ++ " "%char :: w) by (intros f w ->; apply C, in_or_app; right; left; reflexivity). split; [intros (w & E & _); exact (NI _ _ E)|]. unfold updates. repeat split; try (intros w E; exfalso; exact (NI _ _ E)).
Qed.
Lemma field_step f a i (old new : str) : (forall v, i = f ++ " "%char :: v -> new = v) -> ((forall v, i <> f ++ " "%char :: v) -> new = old) -> field_is f a old -> field_is f (a ++ [i]) new.
Proof.
  intros H1 H2 H. assert (D : (exists v, i = f ++ " "%char :: v) \/ (forall v, i <> f ++ " "%char :: v)).
  { destruct (has_prefix i (f ++ [" "%char])) eqn:P; [left; apply has_prefix_spec in P; destruct P as [t ->]; exists t; rewrite <- app_assoc; reflexivity|right]. intros v ->. change (f ++ " "%char :: v) with (f ++ [" "%char] ++ v) in P. rewrite app_assoc, has_prefix_app in P. discriminate. }
  destruct D as [(v & ->)|D].
  - left. rewrite (H1 v eq_refl). exists a, []. split; [reflexivity|intros w []].
  - rewrite (H2 D). destruct H as [(p & q & -> & N)|[N ->]].
    + left. exists p, (q ++ [i]). split; [rewrite <- app_assoc; reflexivity|]. intros w I. apply in_app_or in I. destruct I as [I|[I|[]]]; [exact (N w I)|exact (D w I)].
    + right. split; [|reflexivity]. intros w I. apply in_app_or in I. destruct I as [I|[I|[]]]; [exact (N w I)|exact (D w I)].
Qed.
Lemma dims_step a i x y x' y' : (forall v, i = B "dim" ++ " "%char :: v -> good_dim v x' y') -> ((forall v, i <> B "dim" ++ " "%char :: v) -> x' = x /\ y' = y) -> dims_are a x y -> dims_are (a ++ [i]) x' y'.
Proof.
  intros H1 H2 H. assert (D : (exists v, i = B "dim" ++ " "%char :: v) \/ (forall v, i <> B "dim" ++ " "%char :: v)).
  { destruct (has_prefix i (B "dim" ++ [" "%char])) eqn:P; [left; apply has_prefix_spec in P; destruct P as [t ->]; exists t; rewrite <- app_assoc; reflexivity|right]. intros v ->. change (B "dim" ++ " "%char :: v) with ((B "dim" ++ [" "%char]) ++ v) in P. rewrite has_prefix_app in P. discriminate. }
  destruct D as [(v & ->)|D].
  - left. exists v. split; [exists a, []; split; [reflexivity|intros w []]|exact (H1 v eq_refl)].
  - destruct (H2 D) as [-> ->]. destruct H as [(v & (p & q & -> & N) & G)|[N [-> ->]]].
    + left. exists v. split; [|exact G]. exists p, (q ++ [i]). split; [rewrite <- app_assoc; reflexivity|]. intros w I. apply in_app_or in I. destruct I as [I|[I|[]]]; [exact (N w I)|exact (D w I)].
    + right. split; [|auto]. intros w I. apply in_app_or in I. destruct I as [I|[I|[]]]; [exact (N w I)|exact (D w I)].
Qed.
Definition described (l : list str) (m : imeta) : Prop := field_is (B "url") l (im_url m) /\ field_is (B "alt") l (im_alt m) /\ field_is (B "blurhash") l (im_blurhash m) /\ dims_are l (im_width m) (im_height m).
Lemma items_spec l : forall a m, described a m -> match imeta_items m l with Some m' => Forall (fun i => ~ bad_item i) l /\ described (a ++ l) m' | None => Exists bad_item l end.
Proof.
  induction l as [|i l IH]; intros a m D; cbn [imeta_items]; [rewrite app_nil_r; auto|]. pose proof (item_spec m i) as S. destruct (imeta_item m i) as [m1|]; [|left; exact S].
  destruct S as [NB (U1 & U2 & U3 & U4 & U5 & U6 & U7 & U8)]. assert (D1 : described (a ++ [i]) m1). { destruct D as (D1 & D2 & D3 & D4). split; [eapply field_step; eassumption|]. split; [eapply field_step; eassumption|]. split; [eapply field_step; eassumption|eapply dims_step; eassumption]. }
  specialize (IH _ _ D1). destruct (imeta_items m1 l); [|right; exact IH]. destruct IH as [F D']. split; [constructor; assumption|]. rewrite <- app_assoc in D'. exact D'.
Qed.
Lemma described_nil : described [] no_imeta.
Proof. unfold described, no_imeta, field_is, dims_are. cbn. repeat split; right; auto. Qed.
Inductive each_media : list tag -> list imeta -> Prop :=
| Media_nil : each_media [] []
| Media_skip t ts l : ~ media_tag t -> each_media ts l -> each_media (t :: ts) l
| Media_take t ts m l : media_tag t -> describes t m -> each_media ts l -> each_media (t :: ts) (m :: l).
(** One entry for each media tag, in order, with the last value of each field; or nothing at all if a size anywhere is unreadable. *)
Theorem C97_media ts : (Exists (fun t => media_tag t /\ Exists bad_item (tl t)) ts /\ parse_imeta ts = []) \/ (Forall (fun t => media_tag t -> Forall (fun i => ~ bad_item i) (tl t)) ts /\ each_media ts (parse_imeta ts)).
Proof.
  assert (G : match imeta_loop ts with None => Exists (fun t => media_tag t /\ Exists bad_item (tl t)) ts | Some l => Forall (fun t => media_tag t -> Forall (fun i => ~ bad_item i) (tl t)) ts /\ each_media ts l end).
  { induction ts as [|t ts IH]; [split; constructor|]. cbn [imeta_loop].
    assert (SKIP : ~ media_tag t -> match imeta_loop ts with None => Exists (fun t => media_tag t /\ Exists bad_item (tl t)) (t :: ts) | Some l => Forall (fun t => media_tag t -> Forall (fun i => ~ bad_item i) (tl t)) (t :: ts) /\ each_media (t :: ts) l end).
    { intro N. destruct (imeta_loop ts); [|right; exact IH]. destruct IH. split; [constructor; [intro; contradiction|assumption]|constructor; assumption]. }
    destruct t as [|k [|x [|y t]]]; try (apply SKIP; intros (? & ? & ? & E); discriminate). destruct (seqb_spec k (B "imeta")) as [->|N]; [|apply SKIP; intros (? & ? & ? & E); congruence].
    assert (M : media_tag (B "imeta" :: x :: y :: t)) by (eexists _, _, _; reflexivity). pose proof (items_spec (x :: y :: t) [] no_imeta described_nil) as I. cbn [tl]. destruct (imeta_items no_imeta (x :: y :: t)) as [m|]; [|left; split; [exact M|exact I]].
    destruct (imeta_loop ts) as [l|]; [|right; exact IH]. destruct I as [F D]. destruct IH as [F2 E2]. split; [constructor; [intros _; exact F|exact F2]|]. apply Media_take; [exact M|exact D|exact E2]. }
  unfold parse_imeta. destruct (imeta_loop ts); [right; exact G|left; auto].
Qed.
Theorem C97_get l url : match imeta_get l url with Some m => exists a b, l = a ++ m :: b /\ im_url m = url /\ Forall (fun x => im_url x <> url) a | None => Forall (fun x => im_url x <> url) l end.
Proof.
  unfold imeta_get. induction l as [|x l IH]; cbn [find]; [constructor|]. destruct (seqb_spec (im_url x) url) as [E|E]; [exists [], l; auto|]. destruct (find _ l) as [m|]; [|constructor; assumption]. destruct IH as (a & b & -> & H & F). exists (x :: a), b. auto.
Qed.
(** False: sizes are sizes. *)
Theorem C97_size_refuted : exists ts m, parse_imeta ts = [m] /\ (im_width m < 0)%Z.
Proof. exists [[B "imeta"; B "url u"; B "dim -5x+3"]]. eexists. split; [vm_compute; reflexivity|reflexivity]. Qed.
(** False: a bad tag only spoils itself. *)
Theorem C97_spoiled_refuted : exists good bad, parse_imeta [good] <> [] /\ parse_imeta [good; bad] = [].
Proof. exists [B "imeta"; B "url u"; B "dim 5x3"], [B "imeta"; B "url v"; B "dim 1024"]. split; [discriminate|vm_compute; reflexivity]. Qed.
Example C97_applies : parse_imeta [[B "imeta"; B "url u"; B "dim 5x3"; B "url w"; B "m image/png"]; [B "t"; B "x"; B "y"]; [B "imeta"; B "alt a b"; B "blurhash x"]] = [mkIMeta (B "w") [] 5 3 []; mkIMeta [] (B "x") 0 0 (B "a b")] /\ get_expiration [[B "expiration"; B "1700000000"]] = 1700000000%Z.
Proof. split; vm_compute; reflexivity. Qed.

Print Assumptions C96_protected.
Print Assumptions C96_embedded_sound.
Print Assumptions C96_embedded_complete_partial.
Print Assumptions C96_hidden_refuted.
Print Assumptions C96_spelling_refuted.
Print Assumptions C97_subject.
Print Assumptions C97_alt.
Print Assumptions C97_expiration.
Print Assumptions C97_expires.
Print Assumptions C97_expiration_refuted.
Print Assumptions C97_media.
Print Assumptions C97_get.
Print Assumptions C97_size_refuted.
Print Assumptions C97_spoiled_refuted.
