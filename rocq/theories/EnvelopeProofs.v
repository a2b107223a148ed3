(** Messages: what is written is read back; scanners. *)
From Verif Require Import Base JsonSpec EventModel EventProofs TagsModel FilterModel FilterProofs JLexModel JLexProofs
  JsonEventProofs JsonFilterProofs EnvelopeModel.
Local Open Scope nat_scope.

(** ** The encodings are JSON texts *)
Lemma member_enc_nonempty l vs : Forall2 (fun p kv => enc_chars (fst p) (fst kv) /\ enc (snd p) (snd kv)) l vs ->
  l <> [] -> enc_members (comma_sep (map member_text l) ++ ["}"%char]) vs.
Proof.
  induction 1 as [|[tk t] [k v] l vs [H1 H2] H IH]; intro N; [contradiction|]. cbn [fst snd] in *.
  destruct H as [|p kv l vs H3 H4].
  - cbn [map comma_sep]. unfold member_text. cbn [fst snd].
    replace ((quote :: tk ++ quote :: ":"%char :: t) ++ ["}"%char]) with (quote :: tk ++ quote :: ":"%char :: t ++ B "}").
    + constructor; assumption.
    + cbn [app]. rewrite app_cons_assoc. reflexivity.
  - cbn [map]. change (comma_sep (member_text (tk, t) :: member_text p :: map member_text l))
      with (member_text (tk, t) ++ ","%char :: comma_sep (map member_text (p :: l))).
    unfold member_text at 1. cbn [fst snd].
    replace (((quote :: tk ++ quote :: ":"%char :: t) ++ ","%char :: comma_sep (map member_text (p :: l))) ++ ["}"%char])
      with (quote :: tk ++ quote :: ":"%char :: t ++ ","%char :: (comma_sep (map member_text (p :: l)) ++ ["}"%char])).
    + constructor; [exact H1|exact H2|]. apply IH. discriminate.
    + cbn [app]. repeat (rewrite <- app_assoc; cbn [app]). reflexivity.
Qed.

Lemma object_enc l vs : Forall2 (fun p kv => enc_chars (fst p) (fst kv) /\ enc (snd p) (snd kv)) l vs ->
  enc (object_text l) (JObj vs).
Proof.
  intro H. unfold object_text. destruct H as [|p kv l vs H1 H2].
  - apply e_obj0.
  - apply e_obj. apply member_enc_nonempty; [constructor; assumption|discriminate].
Qed.

Lemma Forall2_refl_map {A C} (P : A -> C -> Prop) (g : A -> C) l : (forall x, In x l -> P x (g x)) -> Forall2 P l (map g l).
Proof. induction l as [|x l IH]; intro H; constructor; [apply H; left; reflexivity|apply IH; intros y Hy; apply H; right; exact Hy]. Qed.

Lemma enc_jw_array {A} (w : A -> str) (g : A -> json) l : (forall x, In x l -> enc (w x) (g x)) -> enc (jw_array (map w l)) (JArr (map g l)).
Proof.
  intro H. unfold jw_array. destruct l as [|x l]; [apply e_arr0|]. apply e_arr.
  revert x H; induction l as [|y l IH]; intros x H.
  - cbn [map comma_sep]. apply ee_last, H. left; reflexivity.
  - change (comma_sep (map w (x :: y :: l))) with (w x ++ ","%char :: comma_sep (map w (y :: l))).
    rewrite <- app_assoc. cbn [app]. cbn [map]. apply ee_cons; [apply H; left; reflexivity|]. apply IH.
    intros z Hz. apply H. right. exact Hz.
Qed.

Lemma enc_jw_strings l : Forall utf8_text l -> enc (jw_strings l) (JArr (map JStr l)).
Proof. intro H. rewrite Forall_forall in H. apply enc_jw_array. intros x Hx. apply jw_string_enc, H, Hx. Qed.

Lemma encode_event_enc e : text_event e -> exists vs, enc (encode_event e) (JObj vs).
Proof.
  intros (H1 & H2 & H3 & H4 & H5 & H6 & H7). rewrite encode_event_object.
  assert (X : exists vs, Forall2 (fun p kv => enc_chars (fst p) (fst kv) /\ enc (snd p) (snd kv)) (event_members e) vs).
  2:{ destruct X as (vs & X). exists vs. apply object_enc, X. }
  assert (O : forall k s, forallb plain_char k = true -> utf8_text s ->
     exists vs, Forall2 (fun p kv => enc_chars (fst p) (fst kv) /\ enc (snd p) (snd kv)) (opt_member k s) vs).
  { intros k s Hk Hs. destruct s as [|c s]; [exists []; constructor|]. exists [(k, JStr (c :: s))].
    constructor; [|constructor]. split; [apply enc_key, Hk|apply jw_string_enc, Hs]. }
  destruct (O (B "id") (ev_id e) eq_refl H1) as (v1 & O1).
  destruct (O (B "pubkey") (ev_pubkey e) eq_refl H2) as (v2 & O2).
  destruct (O (B "sig") (ev_sig e) eq_refl H4) as (v3 & O3).
  exists ([(B "kind", JNum (dec_Z (ev_kind e)))] ++ v1 ++ v2 ++
     [(B "created_at", JNum (dec_Z (ev_created_at e))); (B "tags", JArr (map (fun t => JArr (map JStr t)) (ev_tags e))); (B "content", JStr (ev_content e))] ++ v3).
  unfold event_members. repeat apply Forall2_app; try assumption.
  - constructor; [|constructor]. split; [apply enc_key; reflexivity|apply e_int].
  - constructor; [split; [apply enc_key; reflexivity|apply e_int]|].
    constructor; [split; [apply enc_key; reflexivity|]|].
    + cbn [snd]. apply enc_jw_array. intros t Ht. apply enc_jw_strings. rewrite Forall_forall in H5. apply H5, Ht.
    + constructor; [split; [apply enc_key; reflexivity|apply jw_string_enc, H3]|constructor].
Qed.

Lemma encode_filter_enc f : text_filter f -> exists vs, enc (encode_filter f) (JObj vs) /\
  (forall k v, In (k, v) vs -> k <> B "count").
Proof.
  intros (H1 & H2 & H3 & H4 & H5 & H6 & H7 & H8 & H9). rewrite encode_filter_object.
  set (Q := fun (p : str * str) (kv : str * json) => (enc_chars (fst p) (fst kv) /\ enc (snd p) (snd kv)) /\ fst kv <> B "count").
  assert (X : exists vs, Forall2 Q (filter_members f) vs).
  2:{ destruct X as (vs & X). exists vs. split.
      - apply object_enc. clear -X. induction X as [|p kv l vs [Ha Hb] Hc IH]; constructor; assumption.
      - intros k v. clear -X. induction X as [|p kv l vs [Ha Hb] Hc IH]; [intros []|]. intros [->|Hi]; [exact Hb|apply IH, Hi]. }
  assert (A0 : forall l1 l2, (exists v, Forall2 Q l1 v) -> (exists v, Forall2 Q l2 v) -> exists v, Forall2 Q (l1 ++ l2) v).
  { intros l1 l2 (v1 & A) (v2 & D). exists (v1 ++ v2). apply Forall2_app; assumption. }
  assert (O : forall k t v, enc_chars k k -> k <> B "count" -> enc t v -> exists vs, Forall2 Q [(k, t)] vs).
  { intros k t v Hk Hn Ht. exists [(k, v)]. constructor; [|constructor]. repeat split; assumption. }
  assert (Z : exists v, Forall2 Q [] v) by (exists []; constructor).
  unfold filter_members. repeat apply A0.
  - unfold list_member. destruct (ov (f_ids f)) as [|x l] eqn:E; [exact Z|]. eapply O; [apply enc_key; reflexivity|discriminate|apply enc_jw_strings; exact H1].
  - unfold list_member. destruct (ov (f_kinds f)) as [|x l] eqn:E; [exact Z|]. eapply O; [apply enc_key; reflexivity|discriminate|].
    apply (enc_jw_array dec_Z (fun z => JNum (dec_Z z))). intros; apply e_int.
  - unfold list_member. destruct (ov (f_authors f)) as [|x l] eqn:E; [exact Z|]. eapply O; [apply enc_key; reflexivity|discriminate|apply enc_jw_strings; exact H3].
  - unfold time_member. destruct (f_since f); [|exact Z]. eapply O; [apply enc_key; reflexivity|discriminate|apply e_int].
  - unfold time_member. destruct (f_until f); [|exact Z]. eapply O; [apply enc_key; reflexivity|discriminate|apply e_int].
  - destruct (_ || _); [|exact Z]. eapply O; [apply enc_key; reflexivity|discriminate|apply e_int].
  - unfold opt_member. destruct (f_search f) as [|c s]; [exact Z|]. eapply O; [apply enc_key; reflexivity|discriminate|apply jw_string_enc; exact H7].
  - exists (map (fun p => ("#"%char :: fst p, JArr (map JStr (ov (snd p))))) (f_tags f)).
    clear -H9. induction H9 as [|[k o] m (A & D & E) H IH]; cbn [map]; constructor; [|exact IH]. cbn [fst snd] in *.
    repeat split.
    + unfold tag_member. cbn [fst snd]. apply enc_key. cbn [forallb]. rewrite D. reflexivity.
    + unfold tag_member. cbn [fst snd]. apply enc_jw_strings, E.
    + cbn [fst]. discriminate.
Qed.

(** ** gjson reads compact texts *)
Definition cont (t : str) (fuel depth : nat) (r : str) : str * str :=
  match depth with O => (t, r) | S _ => let '(a, b) := squash fuel depth r in (t ++ a, b) end.

Lemma cont_app t u fuel depth r : cont (t ++ u) fuel depth r = let '(a, b) := cont u fuel depth r in (t ++ a, b).
Proof. unfold cont. destruct depth; [reflexivity|]. destruct (squash fuel (S depth) r). rewrite app_assoc. reflexivity. Qed.

Definition sq_plain (c : ascii) : bool :=
  negb (ceqb c quote || (ceqb c "{"%char || ceqb c "["%char || ceqb c "("%char) || (ceqb c "}"%char || ceqb c "]"%char || ceqb c ")"%char)).

Lemma sq_plain_step c f d r : sq_plain c = true -> squash (S f) d (c :: r) = let '(a, b) := squash f d r in (c :: a, b).
Proof.
  unfold sq_plain. intro H. apply negb_true_iff in H. apply orb_false_iff in H as [H H3]. apply orb_false_iff in H as [H1 H2].
  cbn [squash]. rewrite H1, H2, H3. reflexivity.
Qed.

Lemma squash_plain t : forallb sq_plain t = true -> forall fuel d r, length t + length r <= fuel ->
  exists fuel', length r <= fuel' /\ squash fuel (S d) (t ++ r) = cont t fuel' (S d) r.
Proof.
  induction t as [|c t IH]; intros H fuel d r Hf.
  - exists fuel. split; [cbn in Hf; lia|]. cbn [app cont]. destruct (squash fuel (S d) r); reflexivity.
  - cbn [forallb] in H. apply andb_true_iff in H as [Hc H]. destruct fuel as [|fuel]; [cbn in Hf; lia|].
    cbn [length] in Hf. destruct (IH H fuel d r) as (fuel' & L & E); [lia|]. exists fuel'. split; [exact L|].
    cbn [app]. rewrite sq_plain_step by exact Hc. rewrite E. unfold cont. destruct (squash fuel' (S d) r). reflexivity.
Qed.

Lemma squash_string t v : enc_chars t v -> forall fuel d r, length t + 2 + length r <= fuel ->
  exists fuel', length r <= fuel' /\ squash fuel (S d) (quote :: t ++ quote :: r) = cont (quote :: t ++ [quote]) fuel' (S d) r.
Proof.
  intros H fuel d r Hf. destruct fuel as [|fuel]; [lia|]. exists fuel. split; [lia|].
  cbn [squash]. rewrite ceqb_refl, (raw_string_enc _ _ _ H). unfold cont. destruct (squash fuel (S d) r) as [a b].
  cbn [app]. rewrite <- app_assoc. reflexivity.
Qed.

Lemma squash_open c r fuel d :
  (ceqb c "{"%char || ceqb c "["%char || ceqb c "("%char) = true -> ceqb c quote = false ->
  squash (S fuel) d (c :: r) = let '(a, b) := squash fuel (S d) r in (c :: a, b).
Proof. intros H1 H2. cbn [squash]. rewrite H1, H2. reflexivity. Qed.

Lemma squash_close c fuel d r : (ceqb c "}"%char || ceqb c "]"%char || ceqb c ")"%char) = true -> ceqb c quote = false ->
  (ceqb c "{"%char || ceqb c "["%char || ceqb c "("%char) = false ->
  squash (S fuel) (S d) (c :: r) = cont [c] fuel d r.
Proof. intros H1 H2 H3. cbn [squash]. rewrite H1, H2, H3. destruct d; [reflexivity|]. unfold cont. destruct (squash fuel (S d) r). reflexivity. Qed.

Lemma digits_sq_plain t : forallb is_digit t = true -> forallb sq_plain t = true.
Proof.
  assert (G : forall c, (if is_digit c then sq_plain c else true) = true) by (apply bytes_forallb; vm_compute; reflexivity).
  induction t as [|c t IH]; [reflexivity|]. cbn [forallb]. intro H. apply andb_true_iff in H as [Hc H].
  specialize (G c). rewrite Hc in G. rewrite G, IH by exact H. reflexivity.
Qed.

Lemma dec_Z_sq_plain z : forallb sq_plain (dec_Z z) = true.
Proof.
  destruct (dec_Z_shape z) as (c & t & -> & Hc & Ht). cbn [forallb].
  assert (G : forall c, (if is_digit c || ceqb c "-"%char then sq_plain c else true) = true) by (apply bytes_forallb; vm_compute; reflexivity).
  specialize (G c). rewrite Hc in G. rewrite G, digits_sq_plain by exact Ht. reflexivity.
Qed.

Lemma let_cont_app (x y : str) r f d :
  (let '(a, b) := cont y f d r in (x ++ a, b)) = cont (x ++ y) f d r.
Proof. symmetry. apply cont_app. Qed.

Lemma squash_enc :
  (forall t v, enc t v -> forall fuel d r, length t + length r <= fuel ->
     exists fuel', length r <= fuel' /\ squash fuel (S d) (t ++ r) = cont t fuel' (S d) r) /\
  (forall t l, enc_elems t l -> forall fuel d r, length t + length r <= fuel ->
     exists fuel', length r <= fuel' /\ squash fuel (S d) (t ++ r) = cont t fuel' d r) /\
  (forall t l, enc_members t l -> forall fuel d r, length t + length r <= fuel ->
     exists fuel', length r <= fuel' /\ squash fuel (S d) (t ++ r) = cont t fuel' d r).
Proof.
  assert (STEP : forall x fuel d r f1 (y : str) f2 dd r', squash fuel d r = cont x f1 (S dd) r' -> squash f1 (S dd) r' = cont y f2 dd r' -> True) by auto.
  assert (CH : forall x y f1 d r s f2 d2, squash f1 (S d) s = cont y f2 d2 r -> cont x f1 (S d) s = cont (x ++ y) f2 d2 r).
  { intros x y f1 d r s f2 d2 E. rewrite cont_app. unfold cont at 1. rewrite E. reflexivity. }
  clear STEP.
  apply enc_mutind.
  - apply squash_plain. reflexivity.
  - apply squash_plain. reflexivity.
  - apply squash_plain. reflexivity.
  - intro z. apply squash_plain, dec_Z_sq_plain.
  - intros t s H fuel d r Hf. cbn [app]. rewrite app_cons_assoc. cbn [app]. eapply squash_string; [exact H|].
    cbn [length] in Hf. rewrite app_length in Hf. cbn [length] in Hf. lia.
  - intros fuel d r Hf. destruct fuel as [|[|fuel]]; try (cbn in Hf; lia). exists fuel. split; [cbn in Hf; lia|].
    cbn [app B list_ascii_of_string]. rewrite (squash_open "["%char) by reflexivity.
    rewrite squash_close by reflexivity. apply (let_cont_app ["["%char]).
  - intros t l H IH fuel d r Hf. destruct fuel as [|fuel]; [cbn in Hf; lia|]. cbn [length] in Hf.
    destruct (IH fuel (S d) r) as (f' & L & E); [lia|]. exists f'. split; [exact L|].
    cbn [app]. rewrite (squash_open "["%char) by reflexivity. rewrite E.
    apply (let_cont_app ["["%char]).
  - intros fuel d r Hf. destruct fuel as [|[|fuel]]; try (cbn in Hf; lia). exists fuel. split; [cbn in Hf; lia|].
    cbn [app B list_ascii_of_string]. rewrite (squash_open "{"%char) by reflexivity.
    rewrite squash_close by reflexivity. apply (let_cont_app ["{"%char]).
  - intros t l H IH fuel d r Hf. destruct fuel as [|fuel]; [cbn in Hf; lia|]. cbn [length] in Hf.
    destruct (IH fuel (S d) r) as (f' & L & E); [lia|]. exists f'. split; [exact L|].
    cbn [app]. rewrite (squash_open "{"%char) by reflexivity. rewrite E.
    apply (let_cont_app ["{"%char]).
  - intros t v H IH fuel d r Hf. rewrite app_length in Hf. change (length (B "]")) with 1 in Hf.
    rewrite <- app_assoc. destruct (IH fuel d (B "]" ++ r)) as (f1 & L & E); [rewrite app_length; cbn; lia|].
    cbn [B list_ascii_of_string app length] in L. destruct f1 as [|f1]; [lia|]. exists f1. split; [lia|].
    rewrite E. apply CH. cbn [B list_ascii_of_string app]. apply squash_close; reflexivity.
  - intros t v t' l H IH H' IH' fuel d r Hf. rewrite app_length in Hf. cbn [length] in Hf.
    rewrite app_cons_assoc. destruct (IH fuel d (","%char :: t' ++ r)) as (f1 & L & E); [cbn [length]; rewrite app_length; lia|].
    cbn [length] in L. rewrite app_length in L. destruct f1 as [|f1]; [lia|].
    destruct (IH' f1 d r) as (f2 & L2 & E2); [lia|]. exists f2. split; [exact L2|].
    rewrite E. apply CH. rewrite sq_plain_step by reflexivity. rewrite E2. apply (let_cont_app [","%char]).
  - intros tk k t v Hk H IH fuel d r Hf. cbn [length] in Hf. rewrite app_length in Hf. cbn [length] in Hf.
    rewrite app_length in Hf. change (length (B "}")) with 1 in Hf.
    cbn [app]. rewrite app_cons_assoc. cbn [app]. rewrite <- app_assoc.
    destruct (squash_string _ _ Hk fuel d (":"%char :: t ++ B "}" ++ r)) as (f1 & L1 & E1); [cbn [length]; rewrite app_length; cbn; lia|].
    cbn [length] in L1. rewrite app_length in L1. cbn [B list_ascii_of_string app length] in L1. destruct f1 as [|f1]; [lia|].
    destruct (IH f1 d (B "}" ++ r)) as (f2 & L2 & E2); [cbn [B list_ascii_of_string app length]; lia|].
    cbn [B list_ascii_of_string app length] in L2. destruct f2 as [|f2]; [lia|]. exists f2. split; [lia|].
    rewrite E1.
    replace (quote :: tk ++ quote :: ":"%char :: t ++ B "}") with ((quote :: tk ++ [quote]) ++ ([":"%char] ++ (t ++ ["}"%char])))
      by (cbn [app]; rewrite <- app_assoc; reflexivity).
    apply CH. rewrite sq_plain_step by reflexivity. rewrite E2. rewrite <- let_cont_app. cbn [app].
    erewrite CH; [reflexivity|]. cbn [B list_ascii_of_string app]. apply squash_close; reflexivity.
  - intros tk k t v t' l Hk H IH H' IH' fuel d r Hf. cbn [length] in Hf. rewrite app_length in Hf. cbn [length] in Hf.
    rewrite app_length in Hf. cbn [length] in Hf.
    cbn [app]. rewrite app_cons_assoc. cbn [app]. rewrite app_cons_assoc.
    destruct (squash_string _ _ Hk fuel d (":"%char :: t ++ ","%char :: t' ++ r)) as (f1 & L1 & E1);
      [cbn [length]; rewrite app_length; cbn [length]; rewrite app_length; lia|].
    cbn [length] in L1. rewrite app_length in L1. cbn [length] in L1. rewrite app_length in L1. destruct f1 as [|f1]; [lia|].
    destruct (IH f1 d (","%char :: t' ++ r)) as (f2 & L2 & E2); [cbn [length]; rewrite app_length; lia|].
    cbn [length] in L2. rewrite app_length in L2. destruct f2 as [|f2]; [lia|].
    destruct (IH' f2 d r) as (f3 & L3 & E3); [lia|]. exists f3. split; [exact L3|].
    rewrite E1.
    replace (quote :: tk ++ quote :: ":"%char :: t ++ ","%char :: t') with ((quote :: tk ++ [quote]) ++ ([":"%char] ++ (t ++ ([","%char] ++ t'))))
      by (cbn [app]; rewrite <- app_assoc; reflexivity).
    apply CH. rewrite sq_plain_step by reflexivity. rewrite E2. rewrite <- let_cont_app. cbn [app].
    erewrite CH; [reflexivity|]. rewrite sq_plain_step by reflexivity. rewrite E3. apply (let_cont_app [","%char]).
Qed.

(** ** Elements *)
Definition sep_start (r : str) : Prop := match r with c :: _ => c = ","%char \/ c = "]"%char | [] => False end.
Definition elem (t : str) (g : gval) : Prop :=
  t <> [] /\ forall f r, sep_start r -> g_elems (S f) (t ++ r) = g :: g_elems f r.

Lemma g_text_enc t v : enc_chars t v -> g_text t = v.
Proof.
  intro H. unfold g_text.
  assert (E1 : g_unescape t = v).
  { induction H as [|t v t' v' H1 H2 IH]; [reflexivity|].
    destruct H1 as [c H1 H3 H4|e v H|a b c d cp H1 H3]; cbn [app g_unescape].
    - rewrite ceqb_neq by assumption. destruct (N.ltb_spec (val c) 32); [lia|]. rewrite IH. reflexivity.
    - assert (Hu : ceqb e "u"%char = false) by (apply ceqb_neq; intros ->; discriminate H).
      rewrite ceqb_refl, Hu, H, IH. reflexivity.
    - rewrite !ceqb_refl, H1, H3, IH. reflexivity. }
  assert (E2 : has_bslash t = false -> t = v).
  { clear E1. induction H as [|t v t' v' H1 H2 IH]; [reflexivity|].
    destruct H1 as [c H1 H3 H4|e v H|a b c d cp H1 H3]; cbn [app].
    - unfold has_bslash. cbn [existsb]. intro E. apply orb_false_iff in E as [_ E]. f_equal. apply IH, E.
    - intro E. discriminate E.
    - intro E. discriminate E. }
  destruct (has_bslash t); auto.
Qed.

Lemma elem_string t v : enc_chars t v -> elem (quote :: t ++ [quote]) (mkG (quote :: t ++ [quote]) v false).
Proof.
  intro H. split; [discriminate|]. intros f r _. cbn [app]. rewrite app_cons_assoc. cbn [app g_elems].
  change (val quote <=? 32)%N with false. change (ceqb quote "]") with false. change (ceqb quote "}") with false.
  change (ceqb quote "{") with false. change (ceqb quote "[") with false. cbn [orb]. rewrite ceqb_refl.
  rewrite (raw_string_enc _ _ _ H), (g_text_enc _ _ H). reflexivity.
Qed.

Definition no_quote (s : str) : bool := forallb (fun c => negb (ceqb c quote) && negb (ceqb c bslash)) s.

(** A raw string without quotes and backslashes, control bytes allowed. *)
Lemma raw_string_plain s r : no_quote s = true -> raw_string (s ++ quote :: r) = Some (s, r).
Proof.
  induction s as [|c s IH]; [reflexivity|]. intro H. unfold no_quote in H. cbn [forallb] in H.
  apply andb_true_iff in H as [Hc H]. apply andb_true_iff in Hc as [H1 H2]. apply negb_true_iff in H1, H2.
  cbn [app raw_string]. rewrite H1, H2, IH by exact H. reflexivity.
Qed.
Lemma no_quote_bslash s : no_quote s = true -> has_bslash s = false.
Proof.
  induction s as [|c s IH]; [reflexivity|]. intro H. unfold no_quote in H. cbn [forallb] in H.
  apply andb_true_iff in H as [Hc H]. apply andb_true_iff in Hc as [H1 H2]. apply negb_true_iff in H1, H2.
  unfold has_bslash in *. cbn [existsb]. rewrite H2, IH by exact H. reflexivity.
Qed.

Lemma elem_raw s : no_quote s = true -> elem (quote :: s ++ [quote]) (mkG (quote :: s ++ [quote]) s false).
Proof.
  intro H. split; [discriminate|]. intros f r _. cbn [app]. rewrite app_cons_assoc. cbn [app g_elems].
  change (val quote <=? 32)%N with false. change (ceqb quote "]") with false. change (ceqb quote "}") with false.
  change (ceqb quote "{") with false. change (ceqb quote "[") with false. cbn [orb]. rewrite ceqb_refl.
  rewrite (raw_string_plain _ _ H). unfold g_text. rewrite no_quote_bslash by exact H. reflexivity.
Qed.

Lemma elem_object t l : enc t (JObj l) -> elem t (mkG t [] true).
Proof.
  intro H. inversion H as [| | | | | | | |t' l' H' E]; subst.
  - split; [discriminate|]. intros f r _. reflexivity.
  - split; [discriminate|]. intros f r _. cbn [app g_elems].
    change (val "{" <=? 32)%N with false. change (ceqb "{" "]") with false. change (ceqb "{" "}") with false.
    change (ceqb "{" "{") with true. cbn [orb].
    destruct squash_enc as (_ & _ & P). destruct (P _ _ H' (S (length (t' ++ r))) 0 r) as (f' & L & E'); [rewrite app_length; lia|].
    rewrite E'. reflexivity.
Qed.

Lemma elem_bool (b : bool) : elem (if b then B "true" else B "false") (mkG (if b then B "true" else B "false") [] false).
Proof.
  split; [destruct b; discriminate|]. intros f r H. destruct r as [|c r]; [contradiction|].
  destruct H as [-> | ->]; destruct b; reflexivity.
Qed.

Lemma elem_enc t v : enc t v -> exists s o, elem t (mkG t s o).
Proof.
  intro H. inversion H as [E1 E2|E1 E2|E1 E2|z E1 E2|t' s H' E1 E2|E1 E2|t' l H' E1 E2|E1 E2|t' l H' E1 E2]; subst.
  - exists [], false. split; [discriminate|]. intros f r Hr. destruct r as [|c r]; [contradiction|]. destruct Hr as [-> | ->]; reflexivity.
  - exists [], false. apply (elem_bool true).
  - exists [], false. apply (elem_bool false).
  - exists [], false. destruct (dec_Z_shape z) as (c & t & -> & Hc & Ht). split; [discriminate|]. intros f r Hr. cbn [app g_elems].
    assert (G : forall c, (if is_digit c || ceqb c "-"%char then negb ((val c <=? 32)%N || (ceqb c "]"%char || ceqb c "}"%char) || (ceqb c "{"%char || ceqb c "["%char) || ceqb c quote) else true) = true)
      by (apply bytes_forallb; vm_compute; reflexivity).
    specialize (G c). rewrite Hc in G. apply negb_true_iff in G. rewrite !orb_false_iff in G. destruct G as (((G1 & G2 & G3) & (G4 & G5)) & G6).
    rewrite G1, G2, G3, G4, G5, G6, Hc. cbn [orb].
    assert (S : g_span g_num_end (t ++ r) = (t, r)).
    { clear - Ht Hr. induction t as [|d t IH]; cbn [app].
      - destruct r as [|x r]; [contradiction|]. destruct Hr as [-> | ->]; reflexivity.
      - cbn [forallb] in Ht. apply andb_true_iff in Ht as [Hd Ht]. cbn [g_span].
        assert (G : forall c, (if is_digit c then negb (g_num_end c) else true) = true) by (apply bytes_forallb; vm_compute; reflexivity).
        specialize (G d). rewrite Hd in G. apply negb_true_iff in G. rewrite G, IH by exact Ht. reflexivity. }
    rewrite S. reflexivity.
  - exists s, false. apply elem_string, H'.
  - exists [], false. split; [discriminate|]. intros f r _. reflexivity.
  - exists [], false. split; [discriminate|]. intros f r _. cbn [app g_elems].
    change (val "[" <=? 32)%N with false. change (ceqb "[" "]") with false. change (ceqb "[" "}") with false.
    change (ceqb "[" "{") with false. change (ceqb "[" "[") with true. cbn [orb].
    destruct squash_enc as (_ & P & _). destruct (P _ _ H' (S (length (t' ++ r))) 0 r) as (f' & L & E'); [rewrite app_length; lia|].
    rewrite E'. reflexivity.
  - exists [], true. eapply elem_object, e_obj0.
  - exists [], true. eapply elem_object, e_obj, H'.
Qed.

Lemma g_elems_list ts gs : Forall2 elem ts gs -> ts <> [] -> forall f r, 2 * length ts <= f ->
  g_elems f (comma_sep ts ++ "]"%char :: r) = gs.
Proof.
  induction 1 as [|t g ts gs [Hn H1] H2 IH]; intros N f r Hf; [contradiction|]. cbn [length] in Hf.
  destruct f as [|[|f]]; try lia.
  destruct ts as [|u ts].
  - inversion H2; subst. cbn [comma_sep]. rewrite H1 by (right; reflexivity). f_equal.
  - change (comma_sep (t :: u :: ts)) with (t ++ ","%char :: comma_sep (u :: ts)). rewrite app_cons_assoc.
    rewrite H1 by (left; reflexivity). f_equal.
    change (g_elems (S f) (","%char :: comma_sep (u :: ts) ++ "]"%char :: r)) with (g_elems f (comma_sep (u :: ts) ++ "]"%char :: r)).
    apply IH; [discriminate|]. lia.
Qed.

Lemma comma_sep_length2 l : Forall (fun t : str => t <> []) l -> 2 * length l <= length (comma_sep l) + 1.
Proof.
  intro H. destruct H as [|t ts Ht H]; [cbn; lia|]. rewrite comma_sep_cons, app_length. cbn [length].
  assert (1 <= length t) by (destruct t; [contradiction|cbn; lia]).
  assert (2 * length ts <= length (tails ts)); [|lia].
  clear - H. unfold tails. induction H as [|u ts Hu H IH]; [cbn; lia|]. cbn [flat_map length]. rewrite app_length.
  assert (1 <= length u) by (destruct u; [contradiction|cbn; lia]). cbn [length]. lia.
Qed.

Lemma g_array_list ts gs : Forall2 elem ts gs -> ts <> [] -> g_array (jw_array ts) = gs.
Proof.
  intros H N. unfold jw_array, g_array. cbn [g_span]. change (negb (val "[" <=? 32)%N) with true. cbv iota.
  change (ceqb "[" "[") with true. cbv iota. apply (g_elems_list _ _ H N).
  rewrite app_length. cbn [length].
  assert (F : Forall (fun t : str => t <> []) ts) by (clear -H; induction H as [|t g ts gs [A _] _ IH]; constructor; assumption).
  pose proof (comma_sep_length2 _ F). lia.
Qed.

Lemma label_of_array l ts : no_quote l = true -> cut_quote (jw_array ((quote :: l ++ [quote]) :: ts)) = Some (["["%char], l ++ quote :: tails ts ++ ["]"%char]).
Proof.
  intro H. unfold jw_array. rewrite comma_sep_cons. cbn [cut_quote app]. change (ceqb "[" quote) with false. cbv iota.
  change (ceqb quote quote) with true. cbv iota. rewrite <- app_assoc. cbn [app]. rewrite <- app_assoc. reflexivity.
Qed.

Lemma cut_quote_plain l r : no_quote l = true -> cut_quote (l ++ quote :: r) = Some (l, r).
Proof.
  induction l as [|c l IH]; intro H; [reflexivity|]. unfold no_quote in H. cbn [forallb] in H.
  apply andb_true_iff in H as [Hc H]. apply andb_true_iff in Hc as [H1 H2]. apply negb_true_iff in H1.
  cbn [app cut_quote]. rewrite H1, IH by exact H. reflexivity.
Qed.

Lemma parse_array l ts : no_quote l = true ->
  parse_message (jw_array ((quote :: l ++ [quote]) :: ts)) = from_json l (jw_array ((quote :: l ++ [quote]) :: ts)).
Proof.
  intro H. unfold parse_message. rewrite label_of_array by exact H. rewrite cut_quote_plain by exact H. reflexivity.
Qed.

Lemma jit_enc s : enc_chars (flat_map jw_ascii s) s.
Proof.
  induction s as [|c s IH]; [constructor|]. cbn [flat_map]. change (c :: s) with ([c] ++ s).
  apply enc_chars_app; [apply jw_ascii_enc|exact IH].
Qed.
Lemma elem_jit s : elem (jit_string s) (mkG (jit_string s) s false).
Proof. apply elem_string, jit_enc. Qed.

(** ** The messages as arrays *)
Definition qt (s : str) : str := quote :: s ++ [quote].

(** Conditions under which a message survives: text fields are UTF-8, ids written raw need no escaping, REQ has a filter. *)
Definition wf_envelope (m : envelope) : Prop :=
  match m with
  | EEvent sub e => match sub with Some s => no_quote s = true | None => True end /\ text_event e
  | EReq sub fs => no_quote sub = true /\ fs <> [] /\ Forall text_filter fs
  | ECount sub f count hll => no_quote sub = true /\
      match count with
      | Some n => int64 n /\ match hll with Some h => length h = 256 | None => True end
      | None => text_filter f
      end
  | ENotice _ | EEose _ | EClose _ | EClosed _ _ => True
  | EOk id _ _ => no_quote id = true
  | EAuth (Some _) _ => True
  | EAuth None e => text_event e
  end.
(** What comes back: filters in the form [canon]; the part of a COUNT or AUTH message that is not sent is lost. *)
Definition received (m : envelope) : envelope :=
  match m with
  | EReq sub fs => EReq sub (map canon fs)
  | ECount sub f None _ => ECount sub (canon f) None None
  | ECount sub f (Some n) hll => ECount sub zero_filter (Some n) hll
  | EAuth (Some c) _ => EAuth (Some c) zero_event
  | _ => m
  end.

Lemma elem_label l : no_quote l = true -> elem (qt l) (mkG (qt l) l false).
Proof. apply elem_raw. Qed.

Lemma decode_filters_ok fs : Forall text_filter fs ->
  decode_filters (map (fun f => mkG (encode_filter f) [] true) fs) = Ok (map canon fs).
Proof.
  induction 1 as [|f fs H1 H2 IH]; [reflexivity|]. cbn [map decode_filters g_raw]. rewrite filter_round_trip by exact H1.
  cbn [obind]. rewrite IH. reflexivity.
Qed.

Lemma count_fields_none vs h : (forall k v, In (k, v) vs -> k <> B "count") ->
  match count_fields vs None h with Some (Some _, _) => False | _ => True end.
Proof.
  revert h; induction vs as [|[k v] vs IH]; intros h H; [exact I|]. cbn [count_fields].
  rewrite (proj2 (seqb_neq k (B "count"))) by (apply (H k v); left; reflexivity).
  assert (H' : forall k v, In (k, v) vs -> k <> B "count") by (intros; eapply H; right; eassumption).
  destruct (seqb k (B "hll")); [|apply IH, H']. destruct v; try exact I; apply IH, H'.
Qed.

Lemma hex_plain h : enc_chars (hex_encode h) (hex_encode h).
Proof.
  apply enc_plain. pose proof (hex_encode_lower h) as L. rewrite forallb_forall in *. intros c Hc. specialize (L c Hc).
  assert (G : forall c, (if is_lower_hex_char c then plain_char c else true) = true) by (apply bytes_forallb; vm_compute; reflexivity).
  specialize (G c). rewrite L in G. exact G.
Qed.

Lemma hll_hex_256 h : length h = 256 -> hll_hex h = Ok (hex_encode h).
Proof. intro H. unfold hll_hex. rewrite H. change (2 * 256) with 512. rewrite Nat.ltb_irrefl, Nat.sub_diag. cbn [repeat]. rewrite app_nil_r. reflexivity. Qed.

Lemma count_body_enc n h : 
  enc (B "{""count"":" ++ dec_Z n ++ B ",""hll"":""" ++ hex_encode h ++ [quote] ++ B "}") (JObj [(B "count", JNum (dec_Z n)); (B "hll", JStr (hex_encode h))]).
Proof.
  replace (B "{""count"":" ++ dec_Z n ++ B ",""hll"":""" ++ hex_encode h ++ [quote] ++ B "}") with
    (object_text [(B "count", dec_Z n); (B "hll", qt (hex_encode h))]).
  - apply object_enc. constructor; [split; [apply enc_key; reflexivity|apply e_int]|].
    constructor; [split; [apply enc_key; reflexivity|apply e_str, hex_plain]|constructor].
  - unfold object_text, member_text, qt. cbn [map fst snd comma_sep]. cbn [B list_ascii_of_string app].
    repeat (rewrite <- app_assoc; cbn [app]). reflexivity.
Qed.
Lemma count_body_enc0 n : enc (B "{""count"":" ++ dec_Z n ++ B "}") (JObj [(B "count", JNum (dec_Z n))]).
Proof.
  replace (B "{""count"":" ++ dec_Z n ++ B "}") with (object_text [(B "count", dec_Z n)]).
  - apply object_enc. constructor; [split; [apply enc_key; reflexivity|apply e_int]|constructor].
  - unfold object_text, member_text. cbn [map fst snd comma_sep]. cbn [B list_ascii_of_string app]. reflexivity.
Qed.

Lemma marshal_array ts l : jw_array (qt l :: ts) = "["%char :: quote :: l ++ quote :: tails ts ++ ["]"%char].
Proof. unfold jw_array, qt. rewrite comma_sep_cons. cbn [app]. repeat (rewrite <- app_assoc; cbn [app]). reflexivity. Qed.

Ltac norm_text := unfold qt, jit_string; cbn [B list_ascii_of_string app tails flat_map]; repeat (progress (rewrite <- ?app_assoc; cbn [app])); rewrite ?app_nil_r.

Lemma round_trip_array l ts gs : no_quote l = true -> Forall2 elem ts gs ->
  parse_message (jw_array (qt l :: ts)) = from_json l (jw_array (qt l :: ts)) /\
  g_array (jw_array (qt l :: ts)) = mkG (qt l) l false :: gs.
Proof.
  intros H H2. split; [apply parse_array, H|]. apply g_array_list; [|discriminate]. constructor; [apply elem_label, H|exact H2].
Qed.

Lemma decode_filter_fresh f : decode_filter_into zero_filter f = decode_filter f.
Proof. reflexivity. Qed.

Lemma envelope_round_trip m : wf_envelope m -> exists t, marshal m = Ok t /\ parse_message t = Ok (received m).
Proof.
  destruct m as [sub e|sub fs|sub f count hll|s|s|s|sub reason|id ok reason|[c|] e]; cbn [wf_envelope received]; intro H.
  - destruct H as [Hs He]. destruct (encode_event_enc e He) as (vs & Hv). pose proof (elem_object _ _ Hv) as E.
    destruct sub as [s|].
    + exists (jw_array (qt (B "EVENT") :: [qt s; encode_event e])). split.
      * cbn [marshal]. rewrite marshal_array. norm_text. reflexivity.
      * destruct (round_trip_array (B "EVENT") [qt s; encode_event e] [mkG (qt s) s false; mkG (encode_event e) [] true] eq_refl) as [P G].
        { constructor; [apply elem_raw, Hs|constructor; [exact E|constructor]]. }
        rewrite P. unfold from_json. rewrite G. cbn [g_raw g_str]. cbn [seqb B list_ascii_of_string Ascii.eqb Bool.eqb andb].
        rewrite event_round_trip by exact He. try reflexivity.
    + exists (jw_array (qt (B "EVENT") :: [encode_event e])). split.
      * cbn [marshal]. rewrite marshal_array. norm_text. reflexivity.
      * destruct (round_trip_array (B "EVENT") [encode_event e] [mkG (encode_event e) [] true] eq_refl) as [P G].
        { constructor; [exact E|constructor]. }
        rewrite P. unfold from_json. rewrite G. cbn [g_raw g_str seqb B list_ascii_of_string Ascii.eqb Bool.eqb andb].
        rewrite event_round_trip by exact He. try reflexivity.
  - destruct H as (Hs & Hn & Hf).
    exists (jw_array (qt (B "REQ") :: qt sub :: map encode_filter fs)). split.
    + assert (T : tails (map encode_filter fs) = flat_map (fun f => ","%char :: encode_filter f) fs)
        by (unfold tails; rewrite flat_map_concat_map, flat_map_concat_map, map_map; reflexivity).
      cbn [marshal]. rewrite marshal_array, tails_cons, T. norm_text. reflexivity.
    + destruct (round_trip_array (B "REQ") (qt sub :: map encode_filter fs) (mkG (qt sub) sub false :: map (fun f => mkG (encode_filter f) [] true) fs) eq_refl) as [P G].
      { constructor; [apply elem_raw, Hs|]. clear Hn. induction Hf as [|f fs H1 H2 IH]; [constructor|].
        cbn [map]. constructor; [|exact IH]. destruct (encode_filter_enc f H1) as (vs & Hv & _). eapply elem_object, Hv. }
      rewrite P. unfold from_json. rewrite G. cbn [g_raw g_str seqb B list_ascii_of_string Ascii.eqb Bool.eqb andb].
      pose proof (decode_filters_ok fs Hf) as D. destruct fs as [|f fs]; [contradiction|]. cbn [map] in *. rewrite D. reflexivity.
  - destruct H as (Hs & H). destruct count as [n|].
    + destruct H as [Hn Hh]. destruct hll as [h|].
      * set (body := B "{""count"":" ++ dec_Z n ++ B ",""hll"":""" ++ hex_encode h ++ [quote] ++ B "}").
        exists (jw_array (qt (B "COUNT") :: [qt sub; body])). split.
        -- cbn [marshal]. rewrite hll_hex_256 by exact Hh. cbn [obind]. rewrite marshal_array. unfold body. norm_text. reflexivity.
        -- destruct (round_trip_array (B "COUNT") [qt sub; body] [mkG (qt sub) sub false; mkG body [] true] eq_refl) as [P G].
           { constructor; [apply elem_raw, Hs|constructor; [eapply elem_object, count_body_enc|constructor]]. }
           rewrite P. unfold from_json. rewrite G. cbn [g_raw g_str]. 
           assert (CR : count_result body = Some (n, hex_encode h)).
           { unfold count_result, body. rewrite (json_parse_enc _ _ (count_body_enc n h)).
             cbn [count_fields seqb B list_ascii_of_string Ascii.eqb Bool.eqb andb]. rewrite parse_int_dec_Z by exact Hn. reflexivity. }
           rewrite CR, hex_encode_length, Hh, hex_decode_encode. reflexivity.
      * set (body := B "{""count"":" ++ dec_Z n ++ B "}").
        exists (jw_array (qt (B "COUNT") :: [qt sub; body])). split.
        -- cbn [marshal obind]. rewrite marshal_array. unfold body. norm_text. reflexivity.
        -- destruct (round_trip_array (B "COUNT") [qt sub; body] [mkG (qt sub) sub false; mkG body [] true] eq_refl) as [P G].
           { constructor; [apply elem_raw, Hs|constructor; [eapply elem_object, count_body_enc0|constructor]]. }
           rewrite P. unfold from_json. rewrite G. cbn [g_raw g_str].
           assert (CR : count_result body = Some (n, [])).
           { unfold count_result, body. rewrite (json_parse_enc _ _ (count_body_enc0 n)).
             cbn [count_fields seqb B list_ascii_of_string Ascii.eqb Bool.eqb andb]. rewrite parse_int_dec_Z by exact Hn. reflexivity. }
           rewrite CR. reflexivity.
    + destruct (encode_filter_enc f H) as (vs & Hv & Hc).
      exists (jw_array (qt (B "COUNT") :: [qt sub; encode_filter f])). split.
      * cbn [marshal obind]. rewrite marshal_array. norm_text. reflexivity.
      * destruct (round_trip_array (B "COUNT") [qt sub; encode_filter f] [mkG (qt sub) sub false; mkG (encode_filter f) [] true] eq_refl) as [P G].
        { constructor; [apply elem_raw, Hs|constructor; [eapply elem_object, Hv|constructor]]. }
        rewrite P. unfold from_json. rewrite G. cbn [g_raw g_str].
        assert (CR : count_result (encode_filter f) = None).
        { unfold count_result. rewrite (json_parse_enc _ _ Hv). pose proof (count_fields_none vs [] Hc) as X.
          destruct (count_fields vs None []) as [[[z|] h]|]; [contradiction|reflexivity|reflexivity]. }
        rewrite CR. cbn [decode_onto g_raw]. rewrite decode_filter_fresh, filter_round_trip by exact H. reflexivity.
  - exists (jw_array (qt (B "NOTICE") :: [jit_string s])). split; [cbn [marshal]; rewrite marshal_array; norm_text; reflexivity|].
    destruct (round_trip_array (B "NOTICE") [jit_string s] [mkG (jit_string s) s false] eq_refl) as [P G]; [constructor; [apply elem_jit|constructor]|].
    rewrite P. unfold from_json. rewrite G. reflexivity.
  - exists (jw_array (qt (B "EOSE") :: [jit_string s])). split; [cbn [marshal]; rewrite marshal_array; norm_text; reflexivity|].
    destruct (round_trip_array (B "EOSE") [jit_string s] [mkG (jit_string s) s false] eq_refl) as [P G]; [constructor; [apply elem_jit|constructor]|].
    rewrite P. unfold from_json. rewrite G. reflexivity.
  - exists (jw_array (qt (B "CLOSE") :: [jit_string s])). split; [cbn [marshal]; rewrite marshal_array; norm_text; reflexivity|].
    destruct (round_trip_array (B "CLOSE") [jit_string s] [mkG (jit_string s) s false] eq_refl) as [P G]; [constructor; [apply elem_jit|constructor]|].
    rewrite P. unfold from_json. rewrite G. reflexivity.
  - exists (jw_array (qt (B "CLOSED") :: [jit_string sub; jit_string reason])). split; [cbn [marshal]; rewrite marshal_array; norm_text; reflexivity|].
    destruct (round_trip_array (B "CLOSED") [jit_string sub; jit_string reason] [mkG (jit_string sub) sub false; mkG (jit_string reason) reason false] eq_refl) as [P G].
    { constructor; [apply elem_jit|constructor; [apply elem_jit|constructor]]. }
    rewrite P. unfold from_json. rewrite G. reflexivity.
  - set (b := if ok then B "true" else B "false").
    exists (jw_array (qt (B "OK") :: [qt id; b; jit_string reason])). split; [cbn [marshal]; rewrite marshal_array; fold b; norm_text; reflexivity|].
    destruct (round_trip_array (B "OK") [qt id; b; jit_string reason] [mkG (qt id) id false; mkG b [] false; mkG (jit_string reason) reason false] eq_refl) as [P G].
    { constructor; [apply elem_raw, H|constructor; [apply elem_bool|constructor; [apply elem_jit|constructor]]]. }
    rewrite P. unfold from_json. rewrite G. destruct ok; reflexivity.
  - exists (jw_array (qt (B "AUTH") :: [jit_string c])). split; [cbn [marshal]; rewrite marshal_array; norm_text; reflexivity|].
    destruct (round_trip_array (B "AUTH") [jit_string c] [mkG (jit_string c) c false] eq_refl) as [P G]; [constructor; [apply elem_jit|constructor]|].
    rewrite P. unfold from_json. rewrite G. reflexivity.
  - destruct (encode_event_enc e H) as (vs & Hv). pose proof (elem_object _ _ Hv) as E.
    exists (jw_array (qt (B "AUTH") :: [encode_event e])). split; [cbn [marshal]; rewrite marshal_array; norm_text; reflexivity|].
    destruct (round_trip_array (B "AUTH") [encode_event e] [mkG (encode_event e) [] true] eq_refl) as [P G]; [constructor; [exact E|constructor]|].
    rewrite P. unfold from_json. rewrite G. cbn [g_obj g_raw seqb B list_ascii_of_string Ascii.eqb Bool.eqb andb].
    rewrite event_round_trip by exact H. reflexivity.
Qed.

(** An OK message whose third element is any JSON value. *)
Lemma ok_flag id v tv reason : no_quote id = true -> enc tv v ->
  parse_message (jw_array [qt (B "OK"); qt id; tv; jit_string reason]) =
  Ok (EOk id (match v with JBool true => true | _ => false end) reason).
Proof.
  intros H Hv. destruct (elem_enc _ _ Hv) as (s & o & E).
  destruct (round_trip_array (B "OK") [qt id; tv; jit_string reason] [mkG (qt id) id false; mkG tv s o; mkG (jit_string reason) reason false] eq_refl) as [P G].
  { constructor; [apply elem_raw, H|constructor; [exact E|constructor; [apply elem_jit|constructor]]]. }
  rewrite P. unfold from_json. rewrite G. cbn [g_raw g_str].
  assert (T : seqb tv (B "true") = match v with JBool true => true | _ => false end).
  { destruct (seqb tv (B "true")) eqn:Q.
    - apply seqb_eq in Q. subst tv. pose proof (json_parse_enc _ _ Hv) as J. vm_compute in J. injection J as <-. reflexivity.
    - destruct v as [|[|]| | | | ]; try reflexivity. inversion Hv; subst. discriminate Q. }
  rewrite T. reflexivity.
Qed.
