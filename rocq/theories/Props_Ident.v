(** Internet identifiers: C95. Relay information documents: C99. *)
From Verif Require Import Base EventModel TagsModel Nip19Model AuthModel IdentModel.
Import ListNotations.
Local Open Scope nat_scope.

(** ** What regular expressions mean *)
Fixpoint lang (r : re) (s : str) : Prop :=
  match r with
  | Nul => False
  | Eps => s = []
  | Cls p => exists c, s = [c] /\ p c = true
  | Cat a b => exists x y, s = x ++ y /\ lang a x /\ lang b y
  | Alt a b => lang a s \/ lang b s
  | Star a => exists l, s = concat l /\ Forall (lang a) l
  end.
Lemma nullable_spec r : nullable r = true <-> lang r [].
Proof.
  induction r as [| |p|a IHa b IHb|a IHa b IHb|a IHa]; cbn [nullable lang].
  - split; [discriminate|tauto].
  - split; auto.
  - split; [discriminate|]. intros (c & E & _). discriminate.
  - rewrite andb_true_iff, IHa, IHb. split; [intros [H1 H2]; exists [], []; auto|]. intros (x & y & E & H1 & H2). symmetry in E. apply app_eq_nil in E. destruct E as [-> ->]. auto.
  - rewrite orb_true_iff, IHa, IHb. reflexivity.
  - split; [intros _; exists []; auto|auto].
Qed.
Lemma deriv_spec c r : forall s, lang (deriv c r) s <-> lang r (c :: s).
Proof.
  induction r as [| |p|a IHa b IHb|a IHa b IHb|a IHa]; intro s; cbn [deriv].
  - cbn [lang]. tauto.
  - cbn [lang]. split; [tauto|discriminate].
  - destruct (p c) eqn:E; cbn [lang]; split.
    + intros ->. exists c. auto.
    + intros (d & Q & _). congruence.
    + tauto.
    + intros (d & Q & R). assert (d = c) as -> by congruence. congruence.
  - assert (G : lang (Cat (deriv c a) b) s <-> exists x y, s = x ++ y /\ lang a (c :: x) /\ lang b y).
    { cbn [lang]. split; intros (x & y & -> & H1 & H2); exists x, y; (split; [reflexivity|]; split; [apply IHa, H1|exact H2]). }
    destruct (nullable a) eqn:N.
    + change (lang (Cat (deriv c a) b) s \/ lang (deriv c b) s <-> lang (Cat a b) (c :: s)). rewrite G, IHb. cbn [lang]. split.
      * intros [(x & y & -> & H1 & H2)|H]; [exists (c :: x), y; auto|exists [], (c :: s)]. apply nullable_spec in N. auto.
      * intros (x & y & E & H1 & H2). destruct x as [|d x]; [right; cbn in E; rewrite <- E in H2; exact H2|]. injection E as <- ->. left. exists x, y. auto.
    + rewrite G. cbn [lang]. split.
      * intros (x & y & -> & H1 & H2). exists (c :: x), y. auto.
      * intros (x & y & E & H1 & H2). destruct x as [|d x]; [apply nullable_spec in H1; congruence|]. injection E as <- ->. exists x, y. auto.
  - cbn [lang]. rewrite IHa, IHb. reflexivity.
  - cbn [lang]. split.
    + intros (x & y & -> & H1 & l & -> & F). apply IHa in H1. exists ((c :: x) :: l). split; [reflexivity|constructor; assumption].
    + intros (l & E & F). induction F as [|w l H F IH]; [discriminate|]. destruct w as [|d w]; [apply IH, E|]. cbn [concat app] in E. injection E as <- ->. exists w, (concat l). split; [reflexivity|]. split; [apply IHa, H|exists l; auto].
Qed.
Lemma accept_spec r s : accept r s = true <-> lang r s.
Proof. revert r. induction s as [|c s IH]; intro r; [apply nullable_spec|]. cbn [accept]. rewrite IH. apply deriv_spec. Qed.
Lemma star_cls p s : lang (Star (Cls p)) s <-> forallb p s = true.
Proof.
  cbn [lang]. split.
  - intros (l & -> & F). induction F as [|w l (c & -> & P) F IH]; [reflexivity|]. cbn [concat app forallb]. rewrite P. exact IH.
  - intro H. exists (map (fun c => [c]) s). split; [induction s as [|c s IH]; [reflexivity|]; cbn [map concat app]; cbn [forallb] in H; apply andb_prop in H; rewrite <- IH by apply H; reflexivity|].
    apply Forall_forall. intros w I. apply in_map_iff in I. destruct I as (c & <- & I). exists c. split; [reflexivity|]. rewrite forallb_forall in H. apply H, I.
Qed.
Lemma plus_cls p s : lang (Plus (Cls p)) s <-> s <> [] /\ forallb p s = true.
Proof.
  unfold Plus. change (lang (Cat (Cls p) (Star (Cls p))) s) with (exists x y, s = x ++ y /\ lang (Cls p) x /\ lang (Star (Cls p)) y). split.
  - intros (x & y & -> & (c & -> & P) & H). apply star_cls in H. cbn [app forallb]. rewrite P. split; [discriminate|exact H].
  - intros [N H]. destruct s as [|c s]; [congruence|]. cbn [forallb] in H. apply andb_prop in H. exists [c], s. split; [reflexivity|]. split; [exists c; split; [reflexivity|apply H]|apply star_cls, H].
Qed.

(** * C95. Spec: names of letters, digits and . + - _, domains of two or more labels of letters, digits and - _. *)
Definition alnum : str := B "abcdefghijklmnopqrstuvwxyzABCDEFGHIJKLMNOPQRSTUVWXYZ0123456789_".
Definition name_text (s : str) : Prop := s <> [] /\ incl s (alnum ++ B ".+-").
Definition label_text (s : str) : Prop := s <> [] /\ incl s (alnum ++ B "-").
Fixpoint dotted (ls : list str) : str := match ls with [] => [] | [l] => l | l :: r => l ++ B "." ++ dotted r end.
Definition domain_text (s : str) : Prop := exists ls, 2 <= length ls /\ Forall label_text ls /\ s = dotted ls.
Definition identifies (s name domain : str) : Prop :=
  domain_text domain /\ ((name_text name /\ s = name ++ B "@" ++ domain) \/ (s = domain /\ name = B "_")).
Lemma class_in p l : (forall c, p c = existsb (ceqb c) l) -> forall s, forallb p s = true <-> incl s l.
Proof.
  intros H s. rewrite forallb_forall. split; intros G x I; specialize (G x I).
  - rewrite H in G. apply existsb_exists in G. destruct G as (y & Iy & E). unfold ceqb in E. apply Ascii.eqb_eq in E. subst. exact Iy.
  - rewrite H. apply existsb_exists. exists x. split; [exact G|]. unfold ceqb. apply Ascii.eqb_refl.
Qed.
Lemma eqb_bytes (f g : ascii -> bool) : forallb (fun n => Bool.eqb (f (ascii_of_nat n)) (g (ascii_of_nat n))) (seq 0 256) = true -> forall c, f c = g c.
Proof.
  intros H c. rewrite forallb_forall in H. specialize (H (nat_of_ascii c)). rewrite ascii_nat_embedding in H. apply Bool.eqb_prop, H. apply in_seq. split; [lia|]. apply nat_ascii_bounded.
Qed.
Lemma name_class_in s : forallb name_class s = true <-> incl s (alnum ++ B ".+-").
Proof. apply class_in. apply eqb_bytes. vm_compute. reflexivity. Qed.
Lemma label_class_in s : forallb label_class s = true <-> incl s (alnum ++ B "-").
Proof. apply class_in. apply eqb_bytes. vm_compute. reflexivity. Qed.
Lemma tail_labels l : Forall (fun w => exists v, w = "."%char :: v /\ label_text v) l -> exists ls, length ls = length l /\ Forall label_text ls /\ forall h, dotted (h :: ls) = h ++ concat l.
Proof.
  induction 1 as [|w l (v & -> & V) F (ls & L & G & E)]; [exists []; split; [reflexivity|]; split; [constructor|]; intro h; cbn [dotted concat]; symmetry; apply app_nil_r|].
  exists (v :: ls). split; [cbn [length]; congruence|]. split; [constructor; assumption|]. intro h. change (dotted (h :: v :: ls)) with (h ++ B "." ++ dotted (v :: ls)). rewrite E. reflexivity.
Qed.
Lemma domain_spec s : lang re_domain s <-> domain_text s.
Proof.
  unfold re_domain. change (lang (Cat (Plus (Cls label_class)) (Plus (Cat (Cls is_dot) (Plus (Cls label_class))))) s) with (exists x y, s = x ++ y /\ lang (Plus (Cls label_class)) x /\ lang (Plus (Cat (Cls is_dot) (Plus (Cls label_class)))) y).
  assert (D : forall w, lang (Cat (Cls is_dot) (Plus (Cls label_class))) w <-> exists v, w = "."%char :: v /\ label_text v).
  { intro w. change (lang (Cat (Cls is_dot) (Plus (Cls label_class))) w) with (exists x y, w = x ++ y /\ lang (Cls is_dot) x /\ lang (Plus (Cls label_class)) y). split.
    - intros (x & y & -> & (c & -> & P) & H). unfold is_dot, ceqb in P. apply Ascii.eqb_eq in P. subst. apply plus_cls in H. rewrite label_class_in in H. exists y. auto.
    - intros (v & -> & V). exists (B "."), v. split; [reflexivity|]. split; [exists "."%char; auto|]. apply plus_cls. rewrite label_class_in. exact V. }
  split.
  - intros (x & y & -> & H1 & H2). apply plus_cls in H1. rewrite label_class_in in H1. destruct H2 as (u & v & -> & Hu & l & -> & F).
    assert (F' : Forall (fun w => exists v, w = "."%char :: v /\ label_text v) (u :: l)) by (constructor; [apply D, Hu|]; eapply Forall_impl; [|exact F]; intros w; apply D).
    destruct (tail_labels _ F') as (ls & L & G & E). exists (x :: ls). split; [cbn [length] in *; lia|]. split; [constructor; assumption|]. rewrite E. reflexivity.
  - intros (ls & L & F & ->). destruct ls as [|h [|k ls]]; cbn [length] in L; try lia. inversion F as [|? ? F1 F2]; subst. clear L F. exists h.
    revert h F1 k F2. induction ls as [|m ls IH]; intros h F1 k F2; inversion F2 as [|? ? K1 K2]; subst.
    + exists ("."%char :: k). split; [reflexivity|]. split; [apply plus_cls; rewrite label_class_in; exact F1|]. exists ("."%char :: k), []. split; [symmetry; apply app_nil_r|]. split; [apply D; eauto|]. exists []. auto.
    + destruct (IH k K1 m K2) as (y & E & _ & (u & v & -> & Hu & l & -> & Fl)). exists ("."%char :: dotted (k :: m :: ls)). split; [reflexivity|]. split; [apply plus_cls; rewrite label_class_in; exact F1|].
      exists ("."%char :: k), (u ++ concat l). split; [rewrite E; reflexivity|]. split; [apply D; eauto|]. exists (u :: l). auto.
Qed.
Lemma no_at_label s : domain_text s -> ~ In "@"%char s /\ ~ In "/"%char s.
Proof.
  intros (ls & _ & F & ->). assert (A : forall c, c = "@"%char \/ c = "/"%char -> ~ In c (dotted ls)).
  { intros c Hc. induction F as [|l ls [_ L] F IH]; [intros []|]. assert (N : ~ In c l). { intro I. apply L in I. destruct Hc as [-> | ->]; vm_compute in I; repeat (destruct I as [I|I]; [discriminate|]); exact I. }
    destruct ls as [|k ls]; [exact N|]. change (dotted (l :: k :: ls)) with (l ++ B "." ++ dotted (k :: ls)). intro I. apply in_app_or in I. destruct I as [I|[I|I]]; [exact (N I)|destruct Hc as [-> | ->]; discriminate I|exact (IH I)]. }
  split; apply A; auto.
Qed.
Lemma no_at_name s : name_text s -> ~ In "@"%char s.
Proof. intros [_ H] I. apply H in I. vm_compute in I. repeat (destruct I as [I|I]; [discriminate|]). exact I. Qed.
Lemma cut_app c a b : ~ In c a -> cut_sep c (a ++ c :: b) = Some (a, b).
Proof. induction a as [|x a IH]; intro N; cbn [app cut_sep]; [unfold ceqb; rewrite Ascii.eqb_refl; reflexivity|]. destruct (ceqb x c) eqn:E; [apply Ascii.eqb_eq in E; subst; exfalso; apply N; left; reflexivity|]. rewrite IH; [reflexivity|]. intro I. apply N. right. exact I. Qed.
Lemma cut_none c a : ~ In c a -> cut_sep c a = None.
Proof. induction a as [|x a IH]; intro N; cbn [cut_sep]; [reflexivity|]. destruct (ceqb x c) eqn:E; [apply Ascii.eqb_eq in E; subst; exfalso; apply N; left; reflexivity|]. rewrite IH; [reflexivity|]. intro I. apply N. right. exact I. Qed.
Lemma regex_spec s : accept nip05_regex s = true <-> exists n d, identifies s n d.
Proof.
  rewrite accept_spec. unfold nip05_regex. change (lang (Cat (Opt (Cat re_name (Cls is_at))) re_domain) s) with (exists x y, s = x ++ y /\ ((exists u v, x = u ++ v /\ lang re_name u /\ lang (Cls is_at) v) \/ x = []) /\ lang re_domain y). split.
  - intros (x & y & -> & H & D). apply domain_spec in D. destruct H as [(u & v & -> & U & (c & -> & P))| ->].
    + unfold is_at, ceqb in P. apply Ascii.eqb_eq in P. subst. apply plus_cls in U. rewrite name_class_in in U. exists u, y. split; [exact D|left]. split; [exact U|]. rewrite <- app_assoc. reflexivity.
    + exists (B "_"), y. split; [exact D|]. right. auto.
  - intros (n & d & D & [[N ->]|[-> _]]).
    + exists (n ++ B "@"), d. split; [rewrite <- app_assoc; reflexivity|]. split; [|apply domain_spec, D]. left. exists n, (B "@"). split; [reflexivity|]. split; [apply plus_cls; rewrite name_class_in; exact N|exists "@"%char; auto].
    + exists [], d. split; [reflexivity|]. split; [right; reflexivity|apply domain_spec, D].
Qed.
Lemma parse_of s n d : identifies s n d -> parse_identifier s = Ok (n, d).
Proof.
  intro H. unfold parse_identifier. assert (A : accept nip05_regex s = true) by (apply regex_spec; eauto). rewrite A. unfold groups. destruct H as [D [[N ->]|[-> ->]]].
  - cbn [B list_ascii_of_string app]. rewrite cut_app by (apply no_at_name, N). destruct n; [destruct N; congruence|reflexivity].
  - rewrite cut_none by (apply no_at_label, D). reflexivity.
Qed.
Theorem C95_valid s : is_valid_identifier s = true <-> exists n d, identifies s n d.
Proof. apply regex_spec. Qed.
Theorem C95_parse s n d : parse_identifier s = Ok (n, d) <-> identifies s n d.
Proof.
  split; [|apply parse_of]. intro H. assert (A : accept nip05_regex s = true) by (unfold parse_identifier in H; destruct (accept nip05_regex s); [reflexivity|discriminate]). apply regex_spec in A. destruct A as (n' & d' & A). rewrite (parse_of _ _ _ A) in H. assert (n' = n /\ d' = d) as [-> ->] by (split; congruence). exact A.
Qed.
Theorem C95_no_crash s : parse_identifier s <> Panic /\ ((forall n d, ~ identifies s n d) -> parse_identifier s = Err).
Proof.
  split; [unfold parse_identifier; destruct (accept nip05_regex s); [destruct (groups s)|]; discriminate|]. intro H. unfold parse_identifier. destruct (accept nip05_regex s) eqn:A; [|reflexivity]. apply regex_spec in A. destruct A as (n & d & A). destruct (H n d A).
Qed.
(** Normalising keeps what is named and gives one text for each thing named. *)
Lemma normal_form s n d : identifies s n d -> normalize_identifier s = if seqb n (B "_") then d else n ++ B "@" ++ d.
Proof.
  intros [D [[N ->]|[-> ->]]]; unfold normalize_identifier.
  - destruct (seqb_spec n (B "_")) as [->|X]; [reflexivity|]. destruct (has_prefix (n ++ B "@" ++ d) (B "_@")) eqn:P; [|reflexivity]. exfalso. apply has_prefix_spec in P. destruct P as [t P]. pose proof (no_at_name n N) as NA.
    destruct n as [|c [|c2 n]]; [destruct N; congruence| |].
    + cbn in P. injection P as -> _. apply X. reflexivity.
    + cbn in P. injection P as _ -> _. apply NA. right. left. reflexivity.
  - rewrite seqb_refl. destruct (has_prefix d (B "_@")) eqn:P; [|reflexivity]. exfalso. apply has_prefix_spec in P. destruct P as [t P]. apply no_at_label in D. apply (proj1 D). rewrite P. right. left. reflexivity.
Qed.
Theorem C95_normalize s n d : identifies s n d -> identifies (normalize_identifier s) n d.
Proof.
  intro H. rewrite (normal_form _ _ _ H). destruct H as [D H]. split; [exact D|]. destruct (seqb_spec n (B "_")) as [->|X]; [right; auto|left]. destruct H as [[N _]|[_ E]]; [auto|congruence].
Qed.
Theorem C95_normal_unique s s' n d n' d' : identifies s n d -> identifies s' n' d' -> (normalize_identifier s = normalize_identifier s' <-> n = n' /\ d = d').
Proof.
  intros H H'. split.
  - intro E. assert (A := C95_normalize _ _ _ H). assert (A' := C95_normalize _ _ _ H'). rewrite E in A. apply C95_parse in A, A'. split; congruence.
  - intros [-> ->]. rewrite (normal_form _ _ _ H), (normal_form _ _ _ H'). reflexivity.
Qed.
Lemma split_none c a : ~ In c a -> split_at c a = [a].
Proof. induction a as [|x a IH]; intro N; cbn [split_at]; [reflexivity|]. destruct (ceqb x c) eqn:E; [apply Ascii.eqb_eq in E; subst; exfalso; apply N; left; reflexivity|]. rewrite IH; [reflexivity|]. intro I. apply N. right. exact I. Qed.
Lemma split_one c a b : ~ In c a -> split_at c (a ++ c :: b) = a :: split_at c b.
Proof. induction a as [|x a IH]; intro N; cbn [app split_at]; [unfold ceqb; rewrite Ascii.eqb_refl; reflexivity|]. destruct (ceqb x c) eqn:E; [apply Ascii.eqb_eq in E; subst; exfalso; apply N; left; reflexivity|]. rewrite IH; [reflexivity|]. intro I. apply N. right. exact I. Qed.
(** The two ways to make the address agree, and the address names one identifier. *)
Definition address_of (n d : str) : str := B "https://" ++ d ++ B "/.well-known/nostr.json?name=" ++ n.
Theorem C95_url s n d : identifies s n d -> identifier_to_url s = address_of n d.
Proof.
  intros [D [[N ->]|[-> ->]]]; unfold identifier_to_url.
  - cbn [B list_ascii_of_string app]. rewrite split_one by (apply no_at_name, N). rewrite split_none by (apply no_at_label, D). reflexivity.
  - rewrite split_none by (apply no_at_label, D). reflexivity.
Qed.
Theorem C95_url_injective n d n' d' s s' : identifies s n d -> identifies s' n' d' -> address_of n d = address_of n' d' -> n = n' /\ d = d'.
Proof.
  intros [D _] [D' _] E. unfold address_of in E. apply app_inv_head in E. assert (X : forall n0 d0, domain_text d0 -> cut_sep "/"%char (d0 ++ B "/.well-known/nostr.json?name=" ++ n0) = Some (d0, B ".well-known/nostr.json?name=" ++ n0)).
  { intros n0 d0 H. change (B "/.well-known/nostr.json?name=" ++ n0) with ("/"%char :: B ".well-known/nostr.json?name=" ++ n0). apply cut_app. apply no_at_label, H. }
  pose proof (X n d D) as X1. rewrite E, (X n' d' D') in X1. assert (B ".well-known/nostr.json?name=" ++ n' = B ".well-known/nostr.json?name=" ++ n) as Y by congruence. apply app_inv_head in Y. split; congruence.
Qed.
(** What a server reads from the query, by the rules for forms *)
Fixpoint form_value (s : str) : str := match s with [] => [] | c :: r => (if ceqb c "+"%char then " "%char else c) :: form_value r end.
Theorem C95_server_reads_partial n : name_text n -> ~ In "+"%char n -> form_value n = n.
Proof. intros _ N. induction n as [|c n IH]; [reflexivity|]. cbn [form_value]. destruct (ceqb c "+"%char) eqn:E; [apply Ascii.eqb_eq in E; subst; exfalso; apply N; left; reflexivity|]. rewrite IH; [reflexivity|]. intro I. apply N. right. exact I. Qed.
(** Exactly the names without a "+" are read as they are. *)
Theorem C95_server_reads_exactly n : form_value n = n <-> ~ In "+"%char n.
Proof.
  induction n as [|c n IH]; [cbn; tauto|]. cbn [form_value]. destruct (ceqb c "+"%char) eqn:E.
  - apply Ascii.eqb_eq in E. subst c. split; [discriminate|]. intro N. destruct N. left. reflexivity.
  - assert (D : c <> "+"%char) by (intros ->; discriminate). split.
    + intros Q [I|I]; [exact (D I)|]. apply IH in I; [exact I|]. congruence.
    + intro N. f_equal. apply IH. intro I. apply N. right. exact I.
Qed.
(** False: the server is asked for the name. A "+" is not escaped and reads as a space. *)
Theorem C95_plus_refuted : exists s n d, identifies s n d /\ form_value n <> n.
Proof. exists (B "a+b@c.d"), (B "a+b"), (B "c.d"). split; [apply C95_parse; vm_compute; reflexivity|discriminate]. Qed.
(** False for texts that are not identifiers: normalising twice is normalising once. *)
Theorem C95_normalize_twice_refuted : exists s, normalize_identifier (normalize_identifier s) <> normalize_identifier s.
Proof. exists (B "_@_@a.b"). discriminate. Qed.
Section Ask.
Variable parse_ok : str -> bool.
Variable server : str -> option well_known_response.
(** The answer is what the domain says of the name, and only if it is a key. *)
Theorem C95_query s p : query_identifier parse_ok server s = Ok p <-> exists n d r, identifies s n d /\ server (address_of n d) = Some r /\ wk_names r n = Some (pp_pubkey p) /\ valid_pubkey parse_ok (pp_pubkey p) = true /\ pp_relays p = wk_relays r (pp_pubkey p).
Proof.
  unfold query_identifier, fetch. split.
  - destruct (parse_identifier s) as [[n d]| |] eqn:P; cbn [obind]; try discriminate. apply C95_parse in P. destruct (server (well_known d n)) as [r|] eqn:S; cbn [obind]; try discriminate. destruct (wk_names r n) as [pk|] eqn:N; try discriminate. destruct (valid_pubkey parse_ok pk) eqn:V; try discriminate.
    intro H. assert (p = mkProfile pk (wk_relays r pk)) as -> by congruence. exists n, d, r. cbn [pp_pubkey pp_relays]. auto.
  - intros (n & d & r & H & S & N & V & R). apply C95_parse in H. rewrite H. cbn [obind]. change (well_known d n) with (address_of n d). rewrite S. cbn [obind]. rewrite N, V, <- R. destruct p; reflexivity.
Qed.
Theorem C95_query_no_crash s : query_identifier parse_ok server s <> Panic.
Proof.
  unfold query_identifier, fetch. destruct (C95_no_crash s) as [N _]. destruct (parse_identifier s) as [[n d]| |]; cbn [obind]; [|discriminate|congruence]. destruct (server _) as [r|]; cbn [obind]; [|discriminate]. destruct (wk_names r n) as [pk|]; [|discriminate]. destruct (valid_pubkey parse_ok pk); discriminate.
Qed.
(** Asking for an identifier or for its normal form is the same. *)
Theorem C95_query_normal s : is_valid_identifier s = true -> query_identifier parse_ok server (normalize_identifier s) = query_identifier parse_ok server s.
Proof. intro H. apply C95_valid in H. destruct H as (n & d & H). unfold query_identifier, fetch. rewrite (parse_of _ _ _ H), (parse_of _ _ _ (C95_normalize _ _ _ H)). reflexivity. Qed.
End Ask.
Example C95_applies : parse_identifier (B "bob.x+y-z@ex_a.co.uk") = Ok (B "bob.x+y-z", B "ex_a.co.uk") /\ parse_identifier (B "a.b") = Ok (B "_", B "a.b") /\ parse_identifier (B "x@b") = Err /\ parse_identifier (B "x@a..b") = Err /\ normalize_identifier (B "_@a.b") = B "a.b".
Proof. repeat split; vm_compute; reflexivity. Qed.

(** * C99. The list of supported nips. *)
Definition ints (l : list anyval) : Prop := Forall (fun v => exists z, v = AInt z) l.
Lemma is_int_spec n v : is_int n v = true <-> v = AInt n.
Proof. destruct v as [z|z|]; cbn [is_int]; [rewrite Z.eqb_eq; split; congruence|split; discriminate|split; discriminate]. Qed.
Lemma add_nip_cases l n : (In (AInt n) l /\ add_nip l n = l) \/ (~ In (AInt n) l /\ add_nip l n = l ++ [AInt n]).
Proof.
  unfold add_nip. destruct (existsb (is_int n) l) eqn:E; [left|right]; (split; [|reflexivity]).
  - apply existsb_exists in E. destruct E as (v & I & V). apply is_int_spec in V. subst. exact I.
  - intro I. assert (X : existsb (is_int n) l = true) by (apply existsb_exists; exists (AInt n); split; [exact I|apply is_int_spec; reflexivity]). congruence.
Qed.
(** After adding, the list holds what it held and the numbers added, each of these once, and the old entries are in front. *)
Theorem C99_nips_set ns : forall l n, In (AInt n) (add_nips l ns) <-> In (AInt n) l \/ In n ns.
Proof.
  induction ns as [|m ns IH]; intros l n; cbn [add_nips fold_left]; [cbn; tauto|]. change (fold_left add_nip ns (add_nip l m)) with (add_nips (add_nip l m) ns). rewrite IH. cbn [In]. destruct (add_nip_cases l m) as [[I ->]|[I ->]].
  - split; [tauto|]. intros [H|[->|H]]; auto.
  - rewrite in_app_iff. cbn [In]. split; [intros [[H|[H|[]]]|H]; auto; right; left; congruence|]. intros [H|[->|H]]; auto.
Qed.
Theorem C99_nips_once ns : forall l, NoDup l -> NoDup (add_nips l ns).
Proof.
  induction ns as [|m ns IH]; intros l H; [exact H|]. cbn [add_nips fold_left]. apply IH. destruct (add_nip_cases l m) as [[_ ->]|[N ->]]; [exact H|]. assert (P := NoDup_remove_2 l [] (AInt m)).
  clear P IH. induction H as [|x l Nx H IH]; [constructor; [intros []|constructor]|]. cbn [app]. constructor; [|apply IH; intro I; apply N; right; exact I]. intro I. apply in_app_or in I. destruct I as [I|[I|[]]]; [exact (Nx I)|subst; apply N; left; reflexivity].
Qed.
Theorem C99_nips_keep ns : forall l, exists r, add_nips l ns = l ++ r /\ ints r.
Proof.
  induction ns as [|m ns IH]; intro l; [exists []; split; [symmetry; apply app_nil_r|constructor]|]. cbn [add_nips fold_left]. destruct (IH (add_nip l m)) as (r & E & I). change (fold_left add_nip ns (add_nip l m)) with (add_nips (add_nip l m) ns). rewrite E. destruct (add_nip_cases l m) as [[_ ->]|[_ ->]]; [exists r; auto|]. exists (AInt m :: r). split; [rewrite <- app_assoc; reflexivity|constructor; [eauto|exact I]].
Qed.
(** False: no number is listed twice. In a document that was read from JSON the numbers are floats and never equal. *)
Theorem C99_reread_refuted : exists l n, reread (add_nips (reread l) [n]) = [AFloat n; AFloat n].
Proof. exists [AInt 1], 1%Z. reflexivity. Qed.
(** The address asked is that of the relay with http for ws, and the document carries the normal form of the URL. *)
Section Fetch.
Variable norm : str -> str.
Variable request_ok : str -> bool.
Variable answer : str -> option str.
Theorem C99_address rest : info_url (B "ws://" ++ rest) = B "http://" ++ rest /\ info_url (B "wss://" ++ rest) = B "https://" ++ rest.
Proof. split; reflexivity. Qed.
Theorem C99_url_filled_partial u d err : 8 <= length (norm u) -> fetch_info norm request_ok answer u = Ok (d, err) -> in_url d = norm u /\ (err = false <-> in_body d <> None) /\ (forall b, in_body d = Some b -> answer (info_url (norm u)) = Some b).
Proof.
  intros L. unfold fetch_info. destruct (Nat.ltb_spec (length (norm u)) 8) as [X|_]; [lia|]. destruct (request_ok _); [|discriminate]. cbn [negb]. destruct (answer _) as [b|] eqn:A; intro H.
  - assert (d = mkInfo (norm u) (Some b) /\ err = false) as [-> ->] by (split; congruence). cbn [in_url in_body]. repeat split; auto; discriminate.
  - assert (d = mkInfo (norm u) None /\ err = true) as [-> ->] by (split; congruence). cbn [in_url in_body]. repeat split; auto; try discriminate. congruence.
Qed.
Theorem C99_no_crash_partial u : (8 <= length (norm u) -> request_ok (info_url (norm u)) = true) -> fetch_info norm request_ok answer u <> Panic.
Proof. intro H. unfold fetch_info. destruct (Nat.ltb_spec (length (norm u)) 8) as [X|X]; [discriminate|]. rewrite (H X). cbn [negb]. destruct (answer _); discriminate. Qed.
End Fetch.
(** False: a document with the URL always comes back. It does not for a short host. *)
Definition lan_parse (_ : str) : option furl := Some (mkUrl (B "ws") (B "pi") [] [] []).
Theorem C99_short_refuted : let norm := normalize_url lan_parse (fun s => s) (fun s => s) in
  norm (B "ws://pi") = B "ws://pi" /\ forall request_ok answer, fetch_info norm request_ok answer (B "ws://pi") = Ok (mkInfo [] None, true).
Proof. split; [vm_compute; reflexivity|]. intros. vm_compute. reflexivity. Qed.
(** False: it comes back when the request cannot be made. A URL that NormalizeURL takes and http.NewRequest does not crashes the program. *)
Theorem C99_crash_refuted norm request_ok answer u : 8 <= length (norm u) -> request_ok (info_url (norm u)) = false -> fetch_info norm request_ok answer u = Panic.
Proof. intros L R. unfold fetch_info. destruct (Nat.ltb_spec (length (norm u)) 8); [lia|]. rewrite R. reflexivity. Qed.
Example C99_applies : add_nips [AInt 3; AFloat 1; AOther] [1; 3; 1; 5]%Z = [AInt 3; AFloat 1; AOther; AInt 1; AInt 5] /\ fetch_info (fun s => s) (fun _ => true) (fun s => if seqb s (B "https://relay.x") then Some (B "doc") else None) (B "wss://relay.x") = Ok (mkInfo (B "wss://relay.x") (Some (B "doc")), false).
Proof. split; vm_compute; reflexivity. Qed.

Print Assumptions C95_valid.
Print Assumptions C95_parse.
Print Assumptions C95_no_crash.
Print Assumptions C95_normalize.
Print Assumptions C95_normal_unique.
Print Assumptions C95_url.
Print Assumptions C95_url_injective.
Print Assumptions C95_server_reads_partial.
Print Assumptions C95_plus_refuted.
Print Assumptions C95_normalize_twice_refuted.
Print Assumptions C95_query.
Print Assumptions C95_query_no_crash.
Print Assumptions C95_query_normal.
Print Assumptions C99_nips_set.
Print Assumptions C99_nips_once.
Print Assumptions C99_nips_keep.
Print Assumptions C99_reread_refuted.
Print Assumptions C99_address.
Print Assumptions C99_url_filled_partial.
Print Assumptions C99_no_crash_partial.
Print Assumptions C99_short_refuted.
Print Assumptions C99_crash_refuted.

Print Assumptions C95_server_reads_exactly.
