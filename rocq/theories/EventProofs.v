(** Proofs about EventModel.v *)
From Verif Require Import Base JsonSpec EventModel.

(** ** Escaping *)
Lemma enc_escape_char c : enc_char (escape_char c) [c].
Proof.
  (* every byte, by computation: a decision procedure for the three shapes *)
  set (p := fun c =>
    match escape_char c with
    | [x] => ceqb x c && negb (ceqb x quote) && negb (ceqb x bslash) && (32 <=? val x)%N
    | [b; e] => ceqb b bslash && match simple_escape e with Some v => ceqb v c | None => false end
    | [b; u; h1; h2; h3; h4] => ceqb b bslash && ceqb u "u"%char &&
        match hex4 h1 h2 h3 h4 with
        | Some cp => negb (is_surrogate cp) && (seqb (utf8 cp) [c])
        | None => false end
    | _ => false
    end).
  assert (H : forall c, p c = true) by (apply bytes_forallb; vm_compute; reflexivity).
  specialize (H c). unfold p in H. clear p.
  destruct (escape_char c) as [|x [|y [|z [|t [|u [|w [|]]]]]]]; try discriminate.
  - repeat (apply andb_true_iff in H as [H ?]).
    apply Ascii.eqb_eq in H. subst x. apply ec_raw.
    + intros ->. discriminate.
    + intros ->. discriminate.
    + lia.
  - apply andb_true_iff in H as [H1 H2]. apply Ascii.eqb_eq in H1. subst x.
    destruct (simple_escape y) as [v|] eqn:E; [|discriminate]. apply Ascii.eqb_eq in H2. subst v.
    apply ec_simple. exact E.
  - apply andb_true_iff in H as [H H2]. apply andb_true_iff in H as [H1 H3].
    apply Ascii.eqb_eq in H1, H3. subst x y.
    destruct (hex4 z t u w) as [cp|] eqn:E; [|discriminate].
    apply andb_true_iff in H2 as [H2 H3]. apply seqb_eq in H3. rewrite <- H3.
    apply ec_u; [exact E|]. apply negb_true_iff in H2. exact H2.
Qed.

Lemma enc_escape_chars s : enc_chars (flat_map escape_char s) s.
Proof.
  induction s as [|c s IH]; [constructor|].
  cbn [flat_map]. change (c :: s) with ([c] ++ s). constructor; [apply enc_escape_char|exact IH].
Qed.

Lemma enc_escape_string s : enc (escape_string s) (JStr s).
Proof. unfold escape_string. apply e_str. apply enc_escape_chars. Qed.

(** ** Lists with separators *)
Lemma enc_elems_comma {A} (f : A -> str) (g : A -> json) x l :
  (forall a, enc (f a) (g a)) ->
  enc_elems (comma_sep (map f (x :: l)) ++ ["]"%char]) (map g (x :: l)).
Proof.
  intro H. revert x; induction l as [|y l IH]; intro x.
  - cbn [map comma_sep]. apply ee_last. apply H.
  - cbn [map comma_sep]. cbn [map comma_sep] in IH. rewrite app_cons_assoc.
    apply ee_cons; [apply H|]. apply IH.
Qed.

Lemma enc_arr_comma {A} (f : A -> str) (g : A -> json) l :
  (forall a, enc (f a) (g a)) ->
  enc ("["%char :: comma_sep (map f l) ++ ["]"%char]) (JArr (map g l)).
Proof.
  intro H. destruct l as [|x l].
  - apply e_arr0.
  - apply e_arr. apply enc_elems_comma. exact H.
Qed.

Definition json_tag (t : tag) : json := JArr (map JStr t).
Definition json_tags (ts : list tag) : json := JArr (map json_tag ts).

Lemma enc_serialize_tag t : enc (serialize_tag t) (json_tag t).
Proof. unfold serialize_tag, json_tag. apply enc_arr_comma. apply enc_escape_string. Qed.

Lemma enc_serialize_tags ts :
  enc ("["%char :: comma_sep (map serialize_tag ts) ++ ["]"%char]) (json_tags ts).
Proof. apply enc_arr_comma. apply enc_serialize_tag. Qed.

Definition plain_char (c : ascii) : bool :=
  negb (ceqb c quote) && negb (ceqb c bslash) && (32 <=? val c)%N.

Lemma enc_plain s : forallb plain_char s = true -> enc_chars s s.
Proof.
  induction s as [|c s IH]; intro H; [constructor|].
  cbn [forallb] in H. apply andb_true_iff in H as [Hc Hs].
  unfold plain_char in Hc. apply andb_true_iff in Hc as [Hc H3]. apply andb_true_iff in Hc as [H1 H2].
  change (c :: s) with ([c] ++ s). apply ecs_cons; [|apply IH; exact Hs].
  apply ec_raw; [intros ->; discriminate|intros ->; discriminate|lia].
Qed.

(** The abstract JSON value of NIP-01. *)
Definition nip01_array (e : event) : json :=
  JArr [JNum (B "0"); JStr (ev_pubkey e); JNum (dec_Z (ev_created_at e)); JNum (dec_Z (ev_kind e));
        json_tags (ev_tags e); JStr (ev_content e)].

Lemma enc_serialize e : forallb plain_char (ev_pubkey e) = true -> enc (serialize e) (nip01_array e).
Proof.
  intro Hp. unfold serialize, nip01_array.
  assert (E : B "[0," ++ [quote] ++ ev_pubkey e ++ [quote] ++ B "," ++
    dec_Z (ev_created_at e) ++ B "," ++ dec_Z (ev_kind e) ++ B "," ++
    B "[" ++ comma_sep (map serialize_tag (ev_tags e)) ++ B "]," ++ escape_string (ev_content e) ++ B "]"
    = "["%char :: (dec_Z 0 ++ ","%char :: (quote :: ev_pubkey e ++ [quote]) ++ ","%char ::
       dec_Z (ev_created_at e) ++ ","%char :: dec_Z (ev_kind e) ++ ","%char ::
       ("["%char :: comma_sep (map serialize_tag (ev_tags e)) ++ ["]"%char]) ++ ","%char ::
       escape_string (ev_content e) ++ B "]")).
  { cbn [B list_ascii_of_string app dec_Z dec_N]. repeat (rewrite <- app_assoc; cbn [app]). reflexivity. }
  rewrite E. apply e_arr.
  change (JNum (B "0")) with (JNum (dec_Z 0)).
  apply ee_cons; [apply e_int|].
  apply ee_cons; [apply e_str; apply enc_plain; exact Hp|].
  apply ee_cons; [apply e_int|].
  apply ee_cons; [apply e_int|].
  apply ee_cons; [apply enc_serialize_tags|].
  apply ee_last. apply enc_escape_string.
Qed.

Lemma serialize_parse e : forallb plain_char (ev_pubkey e) = true ->
  json_parse (serialize e) = Some (nip01_array e).
Proof. intro H. apply json_parse_enc, enc_serialize, H. Qed.

(** ** Injectivity *)
Lemma map_JStr_inj a b : map JStr a = map JStr b -> a = b.
Proof.
  revert b; induction a as [|x a IH]; intros [|y b] H; try discriminate; [reflexivity|].
  cbn [map] in H. injection H as -> H. rewrite (IH _ H). reflexivity.
Qed.

Lemma json_tags_inj a b : json_tags a = json_tags b -> a = b.
Proof.
  unfold json_tags. intro H. injection H as H.
  revert b H; induction a as [|x a IH]; intros [|y b] H; try discriminate; [reflexivity|].
  cbn [map] in H. injection H as H1 H. apply map_JStr_inj in H1. rewrite H1, (IH _ H). reflexivity.
Qed.

(** No quote and no backslash. *)
Definition no_quote (s : str) : bool := forallb (fun c => negb (ceqb c quote) && negb (ceqb c bslash)) s.

Lemma quote_split a b x y : no_quote a = true -> no_quote b = true ->
  a ++ quote :: x = b ++ quote :: y -> a = b /\ x = y.
Proof.
  unfold no_quote.
  revert b; induction a as [|c a IH]; intros [|d b] Ha Hb H; cbn [app] in H.
  - injection H as H. auto.
  - injection H as <- _. discriminate Hb.
  - injection H as -> _. discriminate Ha.
  - injection H as -> H. cbn [forallb] in Ha, Hb.
    apply andb_true_iff in Ha as [_ Ha]. apply andb_true_iff in Hb as [_ Hb].
    destruct (IH b Ha Hb H) as [-> ->]. auto.
Qed.

Definition with_pubkey (pk : str) (e : event) : event :=
  mkEvent (ev_id e) pk (ev_created_at e) (ev_kind e) (ev_tags e) (ev_content e) (ev_sig e).

Lemma serialize_inj e1 e2 :
  no_quote (ev_pubkey e1) = true -> no_quote (ev_pubkey e2) = true ->
  serialize e1 = serialize e2 ->
  ev_pubkey e1 = ev_pubkey e2 /\ ev_created_at e1 = ev_created_at e2 /\ ev_kind e1 = ev_kind e2 /\
  ev_tags e1 = ev_tags e2 /\ ev_content e1 = ev_content e2.
Proof.
  intros H1 H2 H.
  assert (Hs : ev_pubkey e1 = ev_pubkey e2 /\ serialize (with_pubkey [] e1) = serialize (with_pubkey [] e2)).
  { unfold serialize in H |- *. unfold with_pubkey; cbn [ev_pubkey ev_created_at ev_kind ev_tags ev_content].
    apply app_inv_head in H. apply app_inv_head in H.
    apply quote_split in H as [Hp Hr]; [|assumption|assumption].
    split; [exact Hp|]. f_equal. f_equal. cbn [app]. f_equal. exact Hr. }
  destruct Hs as [Hp Hs]. split; [exact Hp|].
  apply (f_equal json_parse) in Hs. rewrite !serialize_parse in Hs by reflexivity.
  unfold nip01_array, with_pubkey in Hs. cbn [ev_pubkey ev_created_at ev_kind ev_tags ev_content] in Hs.
  injection Hs as Ha Hk Ht Hc.
  repeat split; [apply dec_Z_inj, Ha|apply dec_Z_inj, Hk| |exact Hc].
  apply json_tags_inj. unfold json_tags. f_equal. exact Ht.
Qed.

(** ** Ids *)
Lemma check_id_loop_spec h id :
  length id = 2 * length h -> (check_id_loop h id = true <-> id = hex_encode h).
Proof.
  revert id; induction h as [|b h IH]; intros id Hl.
  - destruct id; [|discriminate]. split; reflexivity.
  - destruct id as [|x [|y id]]; cbn [length] in Hl; try lia.
    rewrite hex_encode_cons. cbn [check_id_loop].
    unfold ceqb.
    destruct (Ascii.eqb_spec (hex_digit (val b / 16)) x) as [<-|Hx]; cbn [negb].
    + destruct (Ascii.eqb_spec (hex_digit (val b mod 16)) y) as [<-|Hy]; cbn [negb].
      * rewrite IH by lia. split; [intros ->; reflexivity|intro E; injection E as E; exact E].
      * split; [discriminate|intro E; injection E; congruence].
    + split; [discriminate|intro E; injection E; congruence].
Qed.

Lemma check_id_spec sha256 e : (forall m, length (sha256 m) = 32) ->
  (check_id sha256 e = true <-> ev_id e = hex_encode (sha256 (serialize e))).
Proof.
  intro Hsha. unfold check_id.
  destruct (Nat.eqb_spec (length (ev_id e)) 64) as [Hl|Hl]; cbn [negb].
  - apply check_id_loop_spec. rewrite Hsha, Hl. reflexivity.
  - split; [discriminate|]. intro E. exfalso. apply Hl. rewrite E, hex_encode_length, Hsha. reflexivity.
Qed.

Lemma serialize_ext e1 e2 :
  ev_pubkey e1 = ev_pubkey e2 -> ev_created_at e1 = ev_created_at e2 -> ev_kind e1 = ev_kind e2 ->
  ev_tags e1 = ev_tags e2 -> ev_content e1 = ev_content e2 -> serialize e1 = serialize e2.
Proof. unfold serialize. intros -> -> -> -> ->. reflexivity. Qed.

Lemma sign_verifies sha256 PK SG (parse_pubkey : str -> option PK) (parse_sig : str -> option SG)
  verify pub_compressed schnorr_sign :
  (forall m, length (sha256 m) = 32) ->
  (forall s h sg, schnorr_sign s h = Some sg ->
     exists pk sig, parse_pubkey (skipn 1 (pub_compressed s)) = Some pk /\ parse_sig sg = Some sig /\
                    verify sig h pk = true) ->
  forall sk e e', sign sha256 pub_compressed schnorr_sign sk e = Ok e' ->
  get_public_key pub_compressed sk = Ok (ev_pubkey e') /\
  check_id sha256 e' = true /\
  (forall id, check_signature sha256 PK SG parse_pubkey parse_sig verify
     (mkEvent id (ev_pubkey e') (ev_created_at e') (ev_kind e') (ev_tags e') (ev_content e') (ev_sig e')) = Ok true) /\
  check_signature sha256 PK SG parse_pubkey parse_sig verify e' = Ok true /\
  ev_content e' = ev_content e /\ ev_kind e' = ev_kind e /\ ev_created_at e' = ev_created_at e /\
  ev_tags e' = ev_tags e.
Proof.
  intros Hsha Hlaw sk e e' H. unfold sign in H.
  destruct (hex_decode sk) as [s|] eqn:Esk; [|discriminate].
  set (pk := hex_encode (skipn 1 (pub_compressed s))) in *. cbv zeta in H.
  destruct (schnorr_sign s _) as [sg|] eqn:Esg; [|discriminate].
  injection H as <-.
  cbn [ev_pubkey ev_created_at ev_kind ev_tags ev_content ev_sig].
  assert (Hcs : forall id, check_signature sha256 PK SG parse_pubkey parse_sig verify
     (mkEvent id pk (ev_created_at e) (ev_kind e) (ev_tags e) (ev_content e) (hex_encode sg)) = Ok true).
  { intro id. unfold check_signature. cbn [ev_pubkey ev_sig].
    unfold pk at 1. rewrite !hex_decode_encode.
    destruct (Hlaw _ _ _ Esg) as (k & sig & E1 & E2 & E3). rewrite E1, E2. f_equal.
    match goal with |- verify _ (sha256 (serialize ?a)) _ = _ => match type of E3 with verify _ (sha256 (serialize ?b)) _ = _ =>
      replace (serialize a) with (serialize b) by reflexivity end end. exact E3. }
  repeat split; try reflexivity.
  - unfold get_public_key. rewrite Esk. reflexivity.
  - apply check_id_spec; [exact Hsha|reflexivity].
  - exact Hcs.
  - apply Hcs.
Qed.

(** ** Comparison *)
Lemma cmp_int_opp c : cmp_int (CompOpp c) = (- cmp_int c)%Z.
Proof. destruct c; reflexivity. Qed.

(** The order key: created_at, then id. *)
Definition ev_cmp (a b : event) : comparison :=
  match Z.compare (ev_created_at a) (ev_created_at b) with
  | Eq => scmp (ev_id a) (ev_id b) | c => c end.

Lemma compare_event_cmp a b : compare_event a b = cmp_int (ev_cmp a b).
Proof.
  unfold compare_event, ev_cmp.
  destruct (Z.eqb_spec (ev_created_at a) (ev_created_at b)) as [E|E].
  - rewrite E, Z.compare_refl. reflexivity.
  - destruct (Z.compare_spec (ev_created_at a) (ev_created_at b)); try reflexivity. contradiction.
Qed.

Lemma ev_cmp_antisym a b : ev_cmp b a = CompOpp (ev_cmp a b).
Proof.
  unfold ev_cmp. rewrite (Z.compare_antisym (ev_created_at a)), (scmp_antisym (ev_id a)).
  destruct (Z.compare (ev_created_at a) (ev_created_at b)); reflexivity.
Qed.

Lemma ev_cmp_eq a b : ev_cmp a b = Eq <-> ev_created_at a = ev_created_at b /\ ev_id a = ev_id b.
Proof.
  unfold ev_cmp. destruct (Z.compare_spec (ev_created_at a) (ev_created_at b)) as [E|E|E].
  - rewrite scmp_eq. tauto.
  - split; [discriminate|]. intros [E2 _]. lia.
  - split; [discriminate|]. intros [E2 _]. lia.
Qed.

Lemma ev_cmp_lt_trans a b c : ev_cmp a b = Lt -> ev_cmp b c = Lt -> ev_cmp a c = Lt.
Proof.
  unfold ev_cmp.
  destruct (Z.compare_spec (ev_created_at a) (ev_created_at b)) as [E1|E1|E1];
  destruct (Z.compare_spec (ev_created_at b) (ev_created_at c)) as [E2|E2|E2];
  destruct (Z.compare_spec (ev_created_at a) (ev_created_at c)) as [E3|E3|E3]; intros H1 H2;
    try discriminate; try (exfalso; lia); try reflexivity.
  eapply scmp_lt_trans; eassumption.
Qed.

Lemma ev_cmp_congr_r a b c : ev_cmp b c = Eq -> ev_cmp a c = ev_cmp a b.
Proof. intro H. apply ev_cmp_eq in H as [E1 E2]. unfold ev_cmp. rewrite E1, E2. reflexivity. Qed.

Lemma ev_cmp_congr_l a b c : ev_cmp a b = Eq -> ev_cmp a c = ev_cmp b c.
Proof. intro H. apply ev_cmp_eq in H as [E1 E2]. unfold ev_cmp. rewrite E1, E2. reflexivity. Qed.

Definition ev_le (a b : event) : Prop := (compare_event a b <= 0)%Z.

Lemma ev_le_cmp a b : ev_le a b <-> ev_cmp a b <> Gt.
Proof. unfold ev_le. rewrite compare_event_cmp. destruct (ev_cmp a b); cbn; split; intro H; try lia; congruence. Qed.

Lemma ev_le_trans a b c : ev_le a b -> ev_le b c -> ev_le a c.
Proof.
  rewrite !ev_le_cmp. intros H1 H2.
  destruct (ev_cmp a b) eqn:E1; [|destruct (ev_cmp b c) eqn:E2|]; try congruence.
  - rewrite (ev_cmp_congr_l _ _ _ E1). exact H2.
  - rewrite (ev_cmp_congr_r a b c E2), E1. discriminate.
  - rewrite (ev_cmp_lt_trans _ _ _ E1 E2). discriminate.
Qed.

Lemma sorted_perm_unique l l' :
  StronglySorted ev_le l -> StronglySorted ev_le l' -> Permutation l l' ->
  NoDup (map ev_id l) -> l = l'.
Proof.
  revert l'; induction l as [|a l IH]; intros l' H1 H2 HP HN.
  - apply Permutation_nil in HP. auto.
  - destruct l' as [|b l']; [apply Permutation_sym, Permutation_nil in HP; discriminate|].
    assert (Hab : a = b).
    { assert (Ha : In a (b :: l')) by (eapply Permutation_in; [exact HP|left; reflexivity]).
      assert (Hb : In b (a :: l)) by (eapply Permutation_in; [apply Permutation_sym, HP|left; reflexivity]).
      destruct Ha as [Ha|Ha]; [congruence|]. destruct Hb as [Hb|Hb]; [congruence|].
      inversion H1 as [|? ? S1 F1]; subst. inversion H2 as [|? ? S2 F2]; subst.
      rewrite Forall_forall in F1, F2. specialize (F1 _ Hb). specialize (F2 _ Ha).
      rewrite ev_le_cmp in F1, F2. rewrite ev_cmp_antisym in F2.
      destruct (ev_cmp a b) eqn:E; cbn in F2; try congruence.
      apply ev_cmp_eq in E as [_ E]. exfalso.
      cbn [map] in HN. inversion HN as [|? ? N1 N2]; subst. apply N1. rewrite E. apply in_map. exact Hb. }
    subst b. f_equal. apply IH.
    + inversion H1; assumption.
    + inversion H2; assumption.
    + eapply Permutation_cons_inv; exact HP.
    + inversion HN; assumption.
Qed.
