(** C17, C18: the JSON codecs of events and filters (/repo/event_easyjson.go, /repo/filter_easyjson.go). *)
From Verif Require Import Base JsonSpec EventModel EventProofs TagsModel FilterModel FilterProofs JLexModel JLexProofs
  JsonEventProofs JsonFilterProofs EnvelopeProofs.
Local Open Scope nat_scope.

(** ** C17 *)
(** For every event whose text is UTF-8 and whose numbers are int64s, the decoder gives back the event the encoder was given. *)
Theorem C17_event_round_trip e : text_event e -> decode_event (encode_event e) = Ok e.
Proof. exact (event_round_trip e). Qed.
Print Assumptions C17_event_round_trip.

(** What the encoder writes, as a JSON value: the NIP-01 object (empty id, pubkey and sig are left out). Read by the
    grammar of JsonSpec.v, which knows nothing of the codec. *)
Definition opt_field (k s : str) : list (str * json) := match s with [] => [] | _ => [(k, JStr s)] end.
Definition event_json (e : event) : json :=
  JObj ([(B "kind", JNum (dec_Z (ev_kind e)))] ++ opt_field (B "id") (ev_id e) ++ opt_field (B "pubkey") (ev_pubkey e) ++
        [(B "created_at", JNum (dec_Z (ev_created_at e))); (B "tags", json_tags (ev_tags e)); (B "content", JStr (ev_content e))] ++
        opt_field (B "sig") (ev_sig e)).
Theorem C17_event_json_is_nip01 e : text_event e -> json_parse (encode_event e) = Some (event_json e).
Proof.
  intros (H1 & H2 & H3 & H4 & H5 & H6 & H7). apply json_parse_enc. rewrite encode_event_object. apply object_enc.
  assert (O : forall k s, forallb plain_char k = true -> utf8_text s ->
     Forall2 (fun p kv => enc_chars (fst p) (fst kv) /\ enc (snd p) (snd kv)) (opt_member k s) (opt_field k s)).
  { intros k s Hk Hs. destruct s as [|c s]; [constructor|].
    constructor; [|constructor]. split; [apply enc_key, Hk|apply jw_string_enc, Hs]. }
  unfold event_members. repeat apply Forall2_app; try (apply O; [reflexivity|assumption]).
  - constructor; [|constructor]. split; [apply enc_key; reflexivity|apply e_int].
  - constructor; [split; [apply enc_key; reflexivity|apply e_int]|].
    constructor; [split; [apply enc_key; reflexivity|]|].
    + cbn [snd]. apply (enc_jw_array jw_strings (fun t => JArr (map JStr t))). intros t Ht. apply enc_jw_strings. rewrite Forall_forall in H5. apply H5, Ht.
    + constructor; [split; [apply enc_key; reflexivity|apply jw_string_enc, H3]|constructor].
Qed.
Print Assumptions C17_event_json_is_nip01.

(** Two events with the same encoding are the same. *)
Corollary C17_encoding_injective a b : text_event a -> text_event b -> encode_event a = encode_event b -> a = b.
Proof. intros Ha Hb E. apply event_round_trip in Ha, Hb. rewrite E in Ha. congruence. Qed.
Print Assumptions C17_encoding_injective.

(** The hypotheses hold of an event whose content has quotes, a newline, a two-byte character and U+2028. *)
Definition hard_event : event :=
  mkEvent (B "abc") (B "def") (-5) 1 [[B "d"; B "a""b"]; []; [[]]]
    (B "say ""x"" " ++ [byte_of 10; byte_of 0xC3; byte_of 0xA9; byte_of 0xE2; byte_of 0x80; byte_of 0xA8]) (B "00").
Lemma utf8_text_app a b : utf8_text a -> utf8_text b -> utf8_text (a ++ b).
Proof. intros (x & Hx & ->) (y & Hy & ->). exists (x ++ y). split; [apply Forall_app; split; assumption|rewrite flat_map_app; reflexivity]. Qed.
Example C17_example : text_event hard_event /\ decode_event (encode_event hard_event) = Ok hard_event.
Proof.
  split; [|vm_compute; reflexivity].
  assert (A : forall s, forallb (fun c => (val c <? 0x80)%N) s = true -> utf8_text s).
  { intros s H. apply utf8_text_ascii. rewrite forallb_forall in H. apply Forall_forall. intros c Hc. specialize (H c Hc). lia. }
  unfold text_event, int64, hard_event. cbn [ev_id ev_pubkey ev_content ev_sig ev_tags ev_kind ev_created_at].
  repeat split; try (apply A; reflexivity); try (unfold min_int64, max_int64; lia).
  - exists (map val (B "say ""x"" " ++ [byte_of 10]) ++ [0xE9; 0x2028]%N). split; [|vm_compute; reflexivity].
    apply Forall_forall. intros x Hx. vm_compute in Hx. repeat (destruct Hx as [<-|Hx]; [unfold scalar; lia|]). contradiction.
  - repeat (constructor; [repeat (constructor; [apply A; reflexivity|]); constructor|]). constructor.
Qed.

(** Strings are read as the JSON grammar of JsonSpec.v says, however they are spelled: \u escapes, surrogate pairs, \/ and so on.
    [raw_string] finds the end of the token, [junescape] its value. *)
Lemma raw_string_split t a r : raw_string t = Some (a, r) -> t = a ++ quote :: r.
Proof.
  revert a. induction t as [t IH] using (induction_ltof1 _ (@length ascii)). unfold ltof in IH. intros a H.
  destruct t as [|c t]; [discriminate|]. cbn [raw_string] in H. destruct (ceqb c quote) eqn:Q.
  - injection H as <- <-. apply Ascii.eqb_eq in Q. subst. reflexivity.
  - destruct (ceqb c bslash).
    + destruct t as [|d t]; [discriminate|]. destruct (raw_string t) as [[a' r']|] eqn:E; [|discriminate]. injection H as <- <-.
      apply IH in E; [|cbn; lia]. rewrite E. reflexivity.
    + destruct (raw_string t) as [[a' r']|] eqn:E; [|discriminate]. injection H as <- <-. apply IH in E; [|cbn; lia]. rewrite E. reflexivity.
Qed.
Lemma hex_not_special c : hex_val c <> None -> ceqb c quote = false /\ ceqb c bslash = false.
Proof.
  assert (G : forall c, (match hex_val c with Some _ => negb (ceqb c quote) && negb (ceqb c bslash) | None => true end) = true) by (apply bytes_forallb; vm_compute; reflexivity).
  intro H. specialize (G c). destruct (hex_val c); [|congruence]. apply andb_true_iff in G as [G1 G2]. apply negb_true_iff in G1, G2. auto.
Qed.
Lemma raw_hex a b c d n t x r : hex4 a b c d = Some n -> raw_string t = Some (x, r) -> raw_string (a :: b :: c :: d :: t) = Some (a :: b :: c :: d :: x, r).
Proof.
  intros H E. unfold hex4 in H.
  destruct (hex_val a) eqn:H1; [|discriminate]. destruct (hex_val b) eqn:H2; [|discriminate]. destruct (hex_val c) eqn:H3; [|discriminate]. destruct (hex_val d) eqn:H4; [|discriminate].
  assert (N : forall y m, hex_val y = Some m -> ceqb y quote = false /\ ceqb y bslash = false) by (intros y m Hy; apply hex_not_special; congruence).
  apply N in H1 as [A1 A2]. apply N in H2 as [B1 B2]. apply N in H3 as [C1 C2]. apply N in H4 as [D1 D2].
  cbn [raw_string]. rewrite A1, A2, B1, B2, C1, C2, D1, D2, E. reflexivity.
Qed.
Theorem C17_strings_read_as_json : forall t v r, lex_string t = Some (v, r) -> exists raw, raw_string t = Some (raw, r) /\ junescape raw = Some v.
Proof.
  intro t. induction t as [t IH] using (induction_ltof1 _ (@length ascii)). unfold ltof in IH. intros v r H.
  destruct t as [|c t]; [discriminate|]. cbn [lex_string] in H. destruct (ceqb c quote) eqn:Q.
  { injection H as <- <-. exists []. cbn [raw_string]. rewrite Q. split; reflexivity. }
  destruct (ceqb c bslash) eqn:QB.
  2:{ destruct (val c <? 32)%N; [discriminate|]. destruct (lex_string t) as [[v' r']|] eqn:E; [|discriminate]. injection H as <- <-.
      destruct (IH t) with (1 := (le_n _ : length t < length (c :: t))) (2 := E) as (raw & R1 & R2).
      exists (c :: raw). cbn [raw_string junescape]. rewrite Q, QB, R1, R2. split; reflexivity. }
  destruct t as [|e t]; [discriminate|]. destruct (ceqb e "u"%char) eqn:U.
  2:{ destruct (simple_escape e) as [w|] eqn:SE; [|discriminate]. destruct (lex_string t) as [[v' r']|] eqn:E; [|discriminate]. injection H as <- <-.
      destruct (IH t) with (2 := E) as (raw & R1 & R2); [cbn; lia|].
      exists (c :: e :: raw). cbn [raw_string junescape]. rewrite Q, QB, R1, U, SE, R2. split; reflexivity. }
  destruct t as [|h1 [|h2 [|h3 [|h4 t]]]]; try discriminate. destruct (hex4 h1 h2 h3 h4) as [cp|] eqn:HX; [|discriminate].
  assert (STEP : forall x, raw_string t = Some (x, r) -> raw_string (c :: e :: h1 :: h2 :: h3 :: h4 :: t) = Some (c :: e :: h1 :: h2 :: h3 :: h4 :: x, r)).
  { intros x E. change (raw_string (c :: e :: h1 :: h2 :: h3 :: h4 :: t)) with
      (if ceqb c quote then Some ([], e :: h1 :: h2 :: h3 :: h4 :: t) else if ceqb c bslash then match raw_string (h1 :: h2 :: h3 :: h4 :: t) with Some (a, b) => Some (c :: e :: a, b) | None => None end
       else match raw_string (e :: h1 :: h2 :: h3 :: h4 :: t) with Some (a, b) => Some (c :: a, b) | None => None end).
    rewrite Q, QB, (raw_hex _ _ _ _ _ _ _ _ HX E). reflexivity. }
  assert (PLAIN : forall p, pre p (lex_string t) = Some (v, r) -> exists raw v', raw_string t = Some (raw, r) /\ junescape raw = Some v' /\ v = p ++ v').
  { intros p HP. destruct (lex_string t) as [[v' r']|] eqn:E; [|discriminate]. injection HP as <- <-.
    destruct (IH t) with (2 := E) as (raw & R1 & R2); [cbn; lia|]. eauto. }
  destruct (is_surrogate cp) eqn:S.
  2:{ apply PLAIN in H as (raw & v' & R1 & R2 & ->). exists (c :: e :: h1 :: h2 :: h3 :: h4 :: raw). split; [apply STEP, R1|].
      cbn [junescape]. rewrite QB, U, HX, S, R2. reflexivity. }
  (* the pair is read together *)
  assert (PAIR : (exists b' u' l1 l2 l3 l4 t3 lo, t = b' :: u' :: l1 :: l2 :: l3 :: l4 :: t3 /\ ceqb b' bslash && ceqb u' "u"%char = true /\ hex4 l1 l2 l3 l4 = Some lo /\
      is_high cp && is_low lo = true /\ pre (utf8 (0x10000 + (cp - 0xD800) * 1024 + (lo - 0xDC00))) (lex_string t3) = Some (v, r)) \/
    (pre (utf8 0xFFFD) (lex_string t) = Some (v, r) /\ forall b' u' l1 l2 l3 l4 t3 lo, t = b' :: u' :: l1 :: l2 :: l3 :: l4 :: t3 -> ceqb b' bslash && ceqb u' "u"%char = true ->
      hex4 l1 l2 l3 l4 = Some lo -> is_high cp && is_low lo = false)).
  { destruct t as [|b' [|u' [|l1 [|l2 [|l3 [|l4 t3]]]]]]; try (right; split; [exact H|intros; discriminate]).
    destruct (ceqb b' bslash && ceqb u' "u"%char) eqn:BU.
    2:{ right. split; [exact H|]. intros ? ? ? ? ? ? ? ? EQ. injection EQ as <- <- <- <- <- <- <-. congruence. }
    destruct (hex4 l1 l2 l3 l4) as [lo|] eqn:HL.
    2:{ right. split; [exact H|]. intros ? ? ? ? ? ? ? ? EQ. injection EQ as <- <- <- <- <- <- <-. congruence. }
    destruct (is_high cp && is_low lo) eqn:HLO.
    - left. exists b', u', l1, l2, l3, l4, t3, lo. auto.
    - right. split; [exact H|]. intros ? ? ? ? ? ? ? ? EQ. injection EQ as <- <- <- <- <- <- <-. congruence. }
  clear H. destruct PAIR as [(b' & u' & l1 & l2 & l3 & l4 & t3 & lo & -> & BU & HL & HLO & H)|[H NP]].
  - destruct (lex_string t3) as [[v' r']|] eqn:E; [|discriminate]. injection H as <- <-.
    destruct (IH t3) with (2 := E) as (raw & R1 & R2); [cbn; lia|].
    exists (c :: e :: h1 :: h2 :: h3 :: h4 :: b' :: u' :: l1 :: l2 :: l3 :: l4 :: raw). split.
    + apply STEP. apply andb_true_iff in BU as [B1 B2].
      change (raw_string (b' :: u' :: l1 :: l2 :: l3 :: l4 :: t3)) with
       (if ceqb b' quote then Some ([], u' :: l1 :: l2 :: l3 :: l4 :: t3) else if ceqb b' bslash then match raw_string (l1 :: l2 :: l3 :: l4 :: t3) with Some (a, b) => Some (b' :: u' :: a, b) | None => None end
       else match raw_string (u' :: l1 :: l2 :: l3 :: l4 :: t3) with Some (a, b) => Some (b' :: a, b) | None => None end).
      rewrite (raw_hex _ _ _ _ _ _ _ _ HL R1), B1. apply Ascii.eqb_eq in B1. subst b'. reflexivity.
    + cbn [junescape]. rewrite QB, U, HX, S, BU, HL, HLO, R2. reflexivity.
  - apply PLAIN in H as (raw & v' & R1 & R2 & ->). exists (c :: e :: h1 :: h2 :: h3 :: h4 :: raw). split; [apply STEP, R1|].
    cbn [junescape]. rewrite QB, U, HX, S, R2. pose proof (raw_string_split _ _ _ R1) as SP.
    destruct raw as [|b' [|u' [|l1 [|l2 [|l3 [|l4 t3]]]]]]; try reflexivity.
    destruct (ceqb b' bslash && ceqb u' "u"%char) eqn:BU; [|reflexivity]. destruct (hex4 l1 l2 l3 l4) as [lo|] eqn:HL; [|reflexivity].
    rewrite (NP b' u' l1 l2 l3 l4 (t3 ++ quote :: r) lo SP BU HL). reflexivity.
Qed.
Print Assumptions C17_strings_read_as_json.
Example C17_pair_example : lex_string (B "a\ud83d\ude00\/""x") = Some (B "a" ++ utf8 0x1F600 ++ B "/", B "x").
Proof. vm_compute. reflexivity. Qed.

(** Without the UTF-8 condition it is false: a stray byte comes back as U+FFFD. *)
Theorem C17_invalid_utf8_refuted : exists e, int64 (ev_kind e) /\ int64 (ev_created_at e) /\
  exists e', decode_event (encode_event e) = Ok e' /\ ev_content e' <> ev_content e.
Proof.
  exists (mkEvent [] [] 0 1 [] [byte_of 255] []). split; [unfold int64, min_int64, max_int64; cbn; lia|]. split; [unfold int64, min_int64, max_int64; cbn; lia|].
  eexists. split; [vm_compute; reflexivity|]. vm_compute. discriminate.
Qed.
Print Assumptions C17_invalid_utf8_refuted.

(** Finding: valid NIP-01 JSON with a field the decoder does not know is rejected, although NIP-01 asks readers to ignore it
    (event_easyjson.go:34-88: the switch has no default case that skips the value). *)
Definition with_extra : str := B "{""id"":""aa"",""extra"":1,""kind"":1}".
(** Finding: a text that is not JSON at all is accepted. *)
Definition not_json : str := B "{""foo"":""id"":""abc""}".
Theorem C17_unknown_field_refuted :
  (exists v, json_parse with_extra = Some v) /\ decode_event with_extra = Err /\
  json_parse not_json = None /\ exists e, decode_event not_json = Ok e.
Proof. split; [eexists; vm_compute; reflexivity|]. split; [vm_compute; reflexivity|]. split; [vm_compute; reflexivity|]. eexists. vm_compute. reflexivity. Qed.
Print Assumptions C17_unknown_field_refuted.

(** ** C18 *)
(** A filter in normal form: lists are nil or non-empty, tag value lists are not nil, LimitZero goes with limit 0. *)
Definition nil_or_some {A} (o : option (list A)) : Prop := o <> Some [].
Definition normal_filter (f : nfilter) : Prop :=
  nil_or_some (f_ids f) /\ nil_or_some (f_kinds f) /\ nil_or_some (f_authors f) /\
  Forall (fun p => snd p <> None) (f_tags f) /\ (f_limit_zero f = true -> f_limit f = 0%Z).

Lemma normal_canon f : normal_filter f -> canon f = f.
Proof.
  intros (H1 & H2 & H3 & H4 & H5). destruct f as [ids kinds authors tags since until limit search lz]. unfold canon. cbn [f_ids f_kinds f_authors f_tags f_since f_until f_limit f_search f_limit_zero] in *.
  assert (N : forall {A} (o : option (list A)), nil_or_some o -> non_empty o = o).
  { intros A [[|x l]|] H; [exfalso; apply H; reflexivity|reflexivity|reflexivity]. }
  rewrite !N by assumption. f_equal.
  - clear -H4. induction H4 as [|[k [l|]] m Ha Hb IH]; [reflexivity| |exfalso; apply Ha; reflexivity]. cbn [map fst snd ov]. rewrite IH. reflexivity.
  - destruct lz; [rewrite H5 by reflexivity; reflexivity|reflexivity].
Qed.

(** Partial: identity on filters in normal form (with plain tag names). Missing: filters outside the normal form, for which
    it is false, see below. *)
Theorem C18_filter_round_trip_partial f : text_filter f -> normal_filter f -> decode_filter (encode_filter f) = Ok f.
Proof. intros H N. rewrite filter_round_trip by exact H. rewrite normal_canon by exact N. reflexivity. Qed.
Print Assumptions C18_filter_round_trip_partial.

(** Among the filters that can be written, exactly those in normal form come back. *)
Theorem C18_round_trip_exactly f : text_filter f -> (decode_filter (encode_filter f) = Ok f <-> normal_filter f).
Proof.
  intro H. split; [|apply C18_filter_round_trip_partial; exact H]. rewrite filter_round_trip by exact H. intro E.
  assert (C : canon f = f) by exact (f_equal (fun o => match o with Ok x => x | _ => f end) E). clear E H.
  assert (N : forall {A} (o : option (list A)), non_empty o = o -> nil_or_some o) by (intros A o Q ->; discriminate Q).
  split; [exact (N _ _ (f_equal f_ids C))|]. split; [exact (N _ _ (f_equal f_kinds C))|]. split; [exact (N _ _ (f_equal f_authors C))|]. split.
  - assert (C4 : map (fun p => (fst p, Some (ov (snd p)))) (f_tags f) = f_tags f) by exact (f_equal f_tags C). clear -C4. induction (f_tags f) as [|[k o] tags IH]; [apply Forall_nil|].
    cbn [map fst snd] in C4. assert (X := f_equal (fun l => match l with x :: _ => snd x | [] => None end) C4). assert (Y := f_equal (@tl _) C4). cbn [tl snd] in X, Y. apply Forall_cons; [|apply IH, Y]. cbn [snd]. rewrite <- X. discriminate.
  - intro L. assert (C5 : (f_limit_zero f && Z.eqb (f_limit f) 0)%bool = f_limit_zero f) by exact (f_equal f_limit_zero C). rewrite L in C5. apply Z.eqb_eq. exact C5.
Qed.
Print Assumptions C18_round_trip_exactly.
(** For every writable filter the codec loses nothing but the distinction of nil and empty lists and a LimitZero that comes
    with a limit: all of since, until, limit, search, tag names and tag values are kept. *)
Theorem C18_what_is_kept f : text_filter f -> exists g, decode_filter (encode_filter f) = Ok g /\
  f_since g = f_since f /\ f_until g = f_until f /\ f_limit g = f_limit f /\ f_search g = f_search f /\
  map fst (f_tags g) = map fst (f_tags f) /\
  (forall k v, (exists l, In (k, Some l) (f_tags f) /\ In v l) <-> (exists l, In (k, Some l) (f_tags g) /\ In v l)) /\
  (forall x, (exists l, f_ids g = Some l /\ In x l) <-> (exists l, f_ids f = Some l /\ In x l)) /\
  (forall x, (exists l, f_kinds g = Some l /\ In x l) <-> (exists l, f_kinds f = Some l /\ In x l)) /\
  (forall x, (exists l, f_authors g = Some l /\ In x l) <-> (exists l, f_authors f = Some l /\ In x l)).
Proof.
  intro H. exists (canon f). split; [apply filter_round_trip, H|].
  assert (N : forall {A} (o : option (list A)) x, (exists l, non_empty o = Some l /\ In x l) <-> (exists l, o = Some l /\ In x l)).
  { intros A [[|y l]|] x; unfold non_empty; cbn [ov]; split; intros (m & E & I); try discriminate E; injection E as <-; try contradiction; eexists; split; try reflexivity; assumption. }
  unfold canon. cbn [f_ids f_kinds f_authors f_tags f_since f_until f_limit f_search f_limit_zero].
  repeat (split; [reflexivity|]). split; [rewrite map_map; reflexivity|]. split; [|split; [apply N|split; [apply N|apply N]]].
  intros k v. split.
  - intros (l & I & J). exists l. split; [|exact J]. apply in_map_iff. exists (k, Some l). split; [reflexivity|exact I].
  - intros (l & I & J). apply in_map_iff in I as ([k' o] & E & I). cbn [fst snd] in E. injection E as <- <-.
    destruct o as [l|]; [exists l; split; assumption|destruct J].
Qed.
Print Assumptions C18_what_is_kept.

(** The two filters select the same events when the filter is normal. *)
Corollary C18_same_matches_partial f : text_filter f -> normal_filter f ->
  exists g, decode_filter (encode_filter f) = Ok g /\ (forall e, filter_matches g e = filter_matches f e) /\ f_limit g = f_limit f /\ f_limit_zero g = f_limit_zero f.
Proof. intros H N. exists f. split; [apply C18_filter_round_trip_partial; assumption|repeat split]. Qed.
Print Assumptions C18_same_matches_partial.

Definition sample_filter : nfilter :=
  mkFilter (Some [B "aa"]) (Some [1; 30023]%Z) None [(B "e", Some [B "q""r"]); (B "p", Some [])] (Some 5%Z) (Some (-1)%Z) 0 (B "a b") true.
Example C18_example : text_filter sample_filter /\ normal_filter sample_filter /\ decode_filter (encode_filter sample_filter) = Ok sample_filter.
Proof.
  assert (A : forall s, forallb (fun c => (val c <? 0x80)%N) s = true -> utf8_text s).
  { intros s H. apply utf8_text_ascii. rewrite forallb_forall in H. apply Forall_forall. intros c Hc. specialize (H c Hc). lia. }
  split; [|split; [|vm_compute; reflexivity]].
  - unfold text_filter, sample_filter, int64, min_int64, max_int64. cbn [f_ids f_kinds f_authors f_tags f_since f_until f_limit f_search f_limit_zero ov map fst snd].
    repeat apply conj; try lia; try (intros t E; injection E as <-; lia).
    + constructor; [apply A; reflexivity|constructor].
    + repeat (constructor; [lia|]); constructor.
    + constructor.
    + apply A; reflexivity.
    + constructor; [|constructor; [intros []|constructor]]. intros [E|[]]; discriminate E.
    + constructor; [|constructor; [|constructor]]; (split; [discriminate|split; [reflexivity|]]); cbn [fst snd ov]; repeat (constructor; [apply A; reflexivity|]); constructor.
  - unfold normal_filter, nil_or_some, sample_filter. cbn. repeat split; try discriminate. repeat (constructor; [discriminate|]); constructor.
Qed.

(** Refutations for filters outside the normal form. *)
(** An empty id list matches nothing; after the round trip it matches everything. *)
Theorem C18_empty_list_refuted : exists f e g, text_filter f /\ decode_filter (encode_filter f) = Ok g /\ filter_matches f (Some e) <> filter_matches g (Some e).
Proof.
  exists (mkFilter (Some []) None None [] None None 0 [] false), zero_event, zero_filter.
  split; [|split; [vm_compute; reflexivity|vm_compute; discriminate]].
  unfold text_filter, int64, min_int64, max_int64. cbn. repeat apply conj; try lia; try constructor; try discriminate. exists []; split; [constructor|reflexivity].
Qed.
Print Assumptions C18_empty_list_refuted.
(** LimitZero with another limit is not written. *)
Theorem C18_limit_zero_refuted : exists f g, decode_filter (encode_filter f) = Ok g /\ f_limit_zero f <> f_limit_zero g.
Proof. exists (mkFilter None None None [] None None 3 [] true), (mkFilter None None None [] None None 3 [] false). split; [vm_compute; reflexivity|discriminate]. Qed.
Print Assumptions C18_limit_zero_refuted.
(** Tag names are written without escaping: a quote in one gives text that is not JSON. *)
Theorem C18_raw_tag_name_refuted : exists f, json_parse (encode_filter f) = None /\ decode_filter (encode_filter f) = Err.
Proof. exists (mkFilter None None None [([quote], Some [B "x"])] None None 0 [] false). split; vm_compute; reflexivity. Qed.
Print Assumptions C18_raw_tag_name_refuted.
