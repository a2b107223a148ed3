(** Facts about the easyjson model: what it writes it reads back. *)
From Verif Require Import Base JsonSpec EventModel EventProofs TagsModel FilterModel JLexModel.
Local Open Scope N_scope.

(** ** UTF-8 text: a sequence of encoded Unicode scalar values *)
Definition scalar (cp : N) : Prop := cp < 0xD800 \/ (0xE000 <= cp /\ cp < 0x110000).
Definition utf8_text (s : str) : Prop := exists cps, Forall scalar cps /\ s = flat_map utf8 cps.

Lemma jw_ascii_enc c : enc_chars (jw_ascii c) [c].
Proof.
  rewrite <- (app_nil_r (jw_ascii c)). change [c] with ([c] ++ []). constructor; [|constructor].
  unfold jw_ascii.
  destruct (N.eqb_spec (val c) 9) as [E|_]; [assert (c = byte_of 9) as -> by (apply val_inj; rewrite E; reflexivity); apply ec_simple; reflexivity|].
  destruct (N.eqb_spec (val c) 13) as [E|_]; [assert (c = byte_of 13) as -> by (apply val_inj; rewrite E; reflexivity); apply ec_simple; reflexivity|].
  destruct (N.eqb_spec (val c) 10) as [E|_]; [assert (c = byte_of 10) as -> by (apply val_inj; rewrite E; reflexivity); apply ec_simple; reflexivity|].
  unfold ceqb. destruct (Ascii.eqb_spec c bslash) as [->|N1]; [apply ec_simple; reflexivity|].
  destruct (Ascii.eqb_spec c quote) as [->|N2]; [apply ec_simple; reflexivity|].
  destruct (N.ltb_spec (val c) 32) as [L|L].
  - replace [c] with (utf8 (val c)).
    + apply ec_u.
      * unfold hex4. change (hex_val "0") with (Some 0).
        rewrite !hex_val_digit by (apply val_div_lt || apply val_mod_lt). f_equal. pose proof (val_split c). lia.
      * unfold is_surrogate. destruct (N.leb_spec 0xD800 (val c)); [lia|reflexivity].
    + unfold utf8. destruct (N.ltb_spec (val c) 0x80); [|lia]. rewrite byte_of_val. reflexivity.
  - constructor; assumption.
Qed.

Lemma raw_enc1 c t v : 0x80 <= val c -> enc_chars t v -> enc_chars (c :: t) (c :: v).
Proof.
  intros H E. change (c :: t) with ([c] ++ t). change (c :: v) with ([c] ++ v). constructor; [|exact E].
  constructor; [| |lia]; intros ->; vm_compute in H; apply H; reflexivity.
Qed.

Lemma within_true lo hi n : n < 256 -> lo <= n -> n <= hi -> within lo hi (byte_of n) = true.
Proof. intros H1 H2 H3. unfold within. rewrite val_byte_of by exact H1. apply andb_true_iff; split; apply N.leb_le; assumption. Qed.
Lemma within_false lo hi n : n < 256 -> (n < lo \/ hi < n) -> within lo hi (byte_of n) = false.
Proof. intros H1 H2. unfold within. rewrite val_byte_of by exact H1. apply andb_false_iff. rewrite !N.leb_gt. lia. Qed.

Lemma jw_chars_scalar cp r : scalar cp ->
  exists t, jw_chars (utf8 cp ++ r) = t ++ jw_chars r /\ enc_chars t (utf8 cp).
Proof.
  intro H. unfold utf8.
  destruct (N.ltb_spec cp 0x80) as [L1|L1].
  { cbn [app jw_chars]. rewrite val_byte_of by lia. destruct (N.ltb_spec cp 0x80); [|lia].
    eexists; split; [reflexivity|]. apply jw_ascii_enc. }
  destruct (N.ltb_spec cp 0x800) as [L2|L2].
  { set (a := 0xC0 + cp / 64). set (b := 0x80 + cp mod 64).
    assert (Ha : 0xC2 <= a <= 0xDF) by (unfold a; lia). assert (Hb : 0x80 <= b <= 0xBF) by (unfold b; lia).
    cbn [app jw_chars]. rewrite val_byte_of by lia. destruct (N.ltb_spec a 0x80); [lia|].
    rewrite (within_true 0xC2 0xDF a), (within_true 0x80 0xBF b) by lia.
    exists [byte_of a; byte_of b]. split; [reflexivity|].
    apply raw_enc1; [rewrite val_byte_of; lia|]. apply raw_enc1; [rewrite val_byte_of; lia|constructor]. }
  destruct (N.ltb_spec cp 0x10000) as [L3|L3].
  { set (a := 0xE0 + cp / 4096). set (b := 0x80 + (cp / 64) mod 64). set (d := 0x80 + cp mod 64).
    assert (Ha : 0xE0 <= a <= 0xEF) by (unfold a; lia). assert (Hb : 0x80 <= b <= 0xBF) by (unfold b; lia).
    assert (Hd : 0x80 <= d <= 0xBF) by (unfold d; lia).
    assert (Hb0 : a = 0xE0 -> 0xA0 <= b) by (unfold a, b; lia).
    assert (Hb1 : a = 0xED -> b <= 0x9F) by (unfold a, b, scalar in *; lia).
    assert (H28 : a = 0xE2 -> b = 0x80 -> cp = 0x2000 + (d - 0x80)) by (unfold a, b, d; lia).
    cbn [app jw_chars]. rewrite val_byte_of by lia. destruct (N.ltb_spec a 0x80); [lia|].
    rewrite (within_false 0xC2 0xDF a) by lia. rewrite (within_true 0xE0 0xEF a) by lia.
    rewrite (within_true _ _ b), (within_true 0x80 0xBF d).
    2-7: destruct (N.eqb_spec a 0xE0), (N.eqb_spec a 0xED); lia.
    cbn [andb]. eexists; split; [reflexivity|].
    destruct ((a =? 0xE2) && (val (byte_of b) =? 0x80) && within 0xA8 0xA9 (byte_of d)) eqn:E.
    - apply andb_true_iff in E as [E1 E2]. apply andb_true_iff in E1 as [E1 E3].
      apply N.eqb_eq in E1. rewrite val_byte_of in E3 by lia. apply N.eqb_eq in E3.
      unfold within in E2. rewrite val_byte_of in * by lia. apply andb_true_iff in E2 as [E2 E4].
      apply N.leb_le in E2, E4. specialize (H28 E1 E3).
      assert (E5 : d = 0xA8 \/ d = 0xA9) by lia.
      clearbody a b d. subst a b. destruct E5 as [-> | ->]; cbn [app]; vm_compute in H28; subst cp;
        match goal with |- enc_chars ?t ?v => rewrite <- (app_nil_r t); rewrite <- (app_nil_r v) end; constructor; try constructor.
      + change [byte_of 226; byte_of 128; byte_of 168] with (utf8 0x2028). apply ec_u; reflexivity.
      + change [byte_of 226; byte_of 128; byte_of 169] with (utf8 0x2029). apply ec_u; reflexivity.
    - apply raw_enc1; [rewrite val_byte_of; lia|]. apply raw_enc1; [rewrite val_byte_of; lia|].
      apply raw_enc1; [rewrite val_byte_of; lia|constructor]. }
  { assert (L4 : cp < 0x110000) by (unfold scalar in H; lia).
    set (a := 0xF0 + cp / 262144). set (b := 0x80 + (cp / 4096) mod 64). set (d := 0x80 + (cp / 64) mod 64).
    set (g := 0x80 + cp mod 64).
    assert (Ha : 0xF0 <= a <= 0xF4) by (unfold a; lia). assert (Hb : 0x80 <= b <= 0xBF) by (unfold b; lia).
    assert (Hd : 0x80 <= d <= 0xBF) by (unfold d; lia). assert (Hg : 0x80 <= g <= 0xBF) by (unfold g; lia).
    assert (Hb0 : a = 0xF0 -> 0x90 <= b) by (unfold a, b; lia).
    assert (Hb1 : a = 0xF4 -> b <= 0x8F) by (unfold a, b; lia).
    cbn [app jw_chars]. rewrite val_byte_of by lia. destruct (N.ltb_spec a 0x80); [lia|].
    rewrite (within_false 0xC2 0xDF a) by lia. rewrite (within_false 0xE0 0xEF a) by lia.
    rewrite (within_true 0xF0 0xF4 a) by lia.
    rewrite (within_true _ _ b), (within_true 0x80 0xBF d), (within_true 0x80 0xBF g) by
      (destruct (N.eqb_spec a 0xF0), (N.eqb_spec a 0xF4); lia).
    cbn [andb]. exists [byte_of a; byte_of b; byte_of d; byte_of g]. split; [reflexivity|].
    repeat (apply raw_enc1; [rewrite val_byte_of; lia|]). constructor. }
Qed.

Lemma jw_chars_enc s : utf8_text s -> enc_chars (jw_chars s) s.
Proof.
  intros (cps & H & ->). induction H as [|cp cps H1 H2 IH]; [constructor|].
  cbn [flat_map]. destruct (jw_chars_scalar cp (flat_map utf8 cps) H1) as (t & -> & E).
  apply enc_chars_app; assumption.
Qed.

Lemma jw_string_enc s : utf8_text s -> enc (jw_string s) (JStr s).
Proof. intro H. apply e_str, jw_chars_enc, H. Qed.

(** ASCII text is UTF-8 text *)
Lemma utf8_text_ascii s : Forall (fun c => val c < 0x80) s -> utf8_text s.
Proof.
  intro H. exists (map val s). split.
  - apply Forall_map. eapply Forall_impl; [|exact H]. intros c Hc. left. cbn beta in Hc. lia.
  - induction H as [|c s H1 H2 IH]; [reflexivity|]. cbn [map flat_map]. rewrite <- IH. unfold utf8.
    destruct (N.ltb_spec (val c) 0x80); [|lia]. rewrite byte_of_val. reflexivity.
Qed.

(** ** Strings read back *)
Lemma hex_val_not_special c n : hex_val c = Some n -> ceqb c quote = false /\ ceqb c bslash = false.
Proof.
  assert (G : forall c, match hex_val c with Some _ => negb (ceqb c quote) && negb (ceqb c bslash) | None => true end = true)
    by (apply bytes_forallb; vm_compute; reflexivity).
  intro H. specialize (G c). rewrite H in G. apply andb_true_iff in G as [A D]. split; [destruct (ceqb c quote)|destruct (ceqb c bslash)]; try reflexivity; discriminate.
Qed.

Lemma hex4_some a b c d cp : hex4 a b c d = Some cp ->
  exists x y z w, hex_val a = Some x /\ hex_val b = Some y /\ hex_val c = Some z /\ hex_val d = Some w.
Proof. unfold hex4. destruct (hex_val a), (hex_val b), (hex_val c), (hex_val d); try discriminate. eauto 10. Qed.

Lemma raw_string_enc t v r : enc_chars t v -> raw_string (t ++ quote :: r) = Some (t, r).
Proof.
  induction 1 as [|t v t' v' H1 H2 IH]; [reflexivity|].
  destruct H1 as [c H1 H3 H4|e v H|a b c d cp H1 H3]; cbn [app raw_string].
  - rewrite !ceqb_neq by assumption. rewrite IH. reflexivity.
  - change (ceqb bslash quote) with false. rewrite ceqb_refl, IH. reflexivity.
  - change (ceqb bslash quote) with false. rewrite ceqb_refl.
    destruct (hex4_some _ _ _ _ _ H1) as (x & y & z & w & E1 & E2 & E3 & E4).
    apply hex_val_not_special in E1 as [-> ->], E2 as [-> ->], E3 as [-> ->], E4 as [-> ->].
    rewrite IH. reflexivity.
Qed.

Lemma junescape_enc t v : enc_chars t v -> junescape t = Some v.
Proof.
  induction 1 as [|t v t' v' H1 H2 IH]; [reflexivity|].
  destruct H1 as [c H1 H3 H4|e v H|a b c d cp H1 H3]; cbn [app junescape].
  - rewrite ceqb_neq by assumption. rewrite IH. reflexivity.
  - assert (Hu : ceqb e "u"%char = false) by (apply ceqb_neq; intros ->; discriminate H).
    rewrite ceqb_refl, Hu, H, IH. reflexivity.
  - rewrite !ceqb_refl, H1, H3, IH. reflexivity.
Qed.

(** ** Lexer steps *)
Definition end_ok (r : str) : Prop := match r with [] => True | c :: _ => is_token_end c = true end.
Definition sepok (pre : str) (sep : option ascii) : Prop :=
  (pre = [] /\ sep = None) \/ (pre = [","]%char /\ sep = Some ","%char) \/ (pre = [":"]%char /\ sep = Some ":"%char).

Lemma fetch_pre pre sep first s : sepok pre sep -> fetch (pre ++ s) sep first = fetch s None first.
Proof. intros [[-> ->]|[[-> ->]|[-> ->]]]; reflexivity. Qed.

Lemma fetch_string t r first : raw_string (t ++ quote :: r) = Some (t, r) ->
  fetch (quote :: t ++ quote :: r) None first = mkLx r None first (TStr t) false.
Proof. intro H. cbn [fetch]. change (ceqb quote ":") with false. change (ceqb quote ",") with false. change (is_ws quote) with false. cbn [orb]. rewrite ceqb_refl, H. reflexivity. Qed.

Lemma token_end_facts c : is_token_end c = true ->
  is_digit c = false /\ ceqb c "."%char = false /\ ceqb c "e"%char = false /\ ceqb c "E"%char = false /\ ceqb c "+"%char = false /\ ceqb c "-"%char = false.
Proof.
  assert (G : forall c, (if is_token_end c then negb (is_digit c || ceqb c "."%char || ceqb c "e"%char || ceqb c "E"%char || ceqb c "+"%char || ceqb c "-"%char) else true) = true)
    by (apply bytes_forallb; vm_compute; reflexivity).
  intro H. specialize (G c). rewrite H in G. apply negb_true_iff in G.
  do 5 (apply orb_false_iff in G as [G ?]). repeat split; assumption.
Qed.

Lemma raw_number_end r dot e after : end_ok r -> raw_number r dot e after = Some ([], r).
Proof.
  destruct r as [|c r]; [reflexivity|]. cbn [end_ok]. intro H. cbn [raw_number].
  destruct (token_end_facts c H) as (-> & -> & -> & -> & -> & ->). cbn [andb orb]. rewrite H. reflexivity.
Qed.

Lemma raw_number_digits ds r dot e : forallb is_digit ds = true -> end_ok r ->
  raw_number (ds ++ r) dot e false = Some (ds, r).
Proof.
  intros H E. induction ds as [|c ds IH]; [apply raw_number_end, E|].
  cbn [forallb] in H. apply andb_true_iff in H as [Hc H]. cbn [app raw_number]. rewrite Hc, IH by exact H. reflexivity.
Qed.

Lemma digit_fetch c : is_digit c || ceqb c "-"%char = true ->
  ceqb c ":"%char = false /\ ceqb c ","%char = false /\ is_ws c = false /\ ceqb c quote = false /\
  ceqb c "{"%char = false /\ ceqb c "["%char = false /\ ceqb c "}"%char = false /\ ceqb c "]"%char = false.
Proof.
  assert (G : forall c, (if is_digit c || ceqb c "-"%char then negb (ceqb c ":"%char || ceqb c ","%char || is_ws c || ceqb c quote || ceqb c "{"%char || ceqb c "["%char || ceqb c "}"%char || ceqb c "]"%char) else true) = true)
    by (apply bytes_forallb; vm_compute; reflexivity).
  intro H. specialize (G c). rewrite H in G. apply negb_true_iff in G.
  do 7 (apply orb_false_iff in G as [G ?]). repeat split; assumption.
Qed.

Lemma dec_Z_shape z : exists c t, dec_Z z = c :: t /\ is_digit c || ceqb c "-"%char = true /\ forallb is_digit t = true.
Proof.
  assert (P : forall n, exists c t, dec_N n = c :: t /\ is_digit c || ceqb c "-"%char = true /\ forallb is_digit t = true).
  { intro n. destruct (dec_N_head n) as (c & t & E & Hc). exists c, t. split; [exact E|]. rewrite Hc. split; [reflexivity|].
    pose proof (dec_N_digits n) as D. rewrite E in D. cbn [forallb] in D. apply andb_true_iff in D. tauto. }
  destruct z as [|p|p]; unfold dec_Z; [apply P|apply P|].
  exists "-"%char, (dec_N (N.pos p)). split; [reflexivity|]. split; [reflexivity|apply dec_N_digits].
Qed.

Lemma fetch_number z r first : end_ok r -> fetch (dec_Z z ++ r) None first = mkLx r None first (TNum (dec_Z z)) false.
Proof.
  intro H. destruct (dec_Z_shape z) as (c & t & -> & Hc & Ht). cbn [app fetch].
  destruct (digit_fetch c Hc) as (-> & -> & -> & -> & -> & -> & -> & ->). cbn [orb]. rewrite Hc.
  rewrite raw_number_digits by assumption. reflexivity.
Qed.

Lemma scan_undef s sep first : scan (mkLx s sep first TUndef false) = fetch s sep first.
Proof. reflexivity. Qed.

(** ** "act reads the text t as v" *)
Definition reads {A} (act : lexer -> A * lexer) (t : str) (v : A) : Prop :=
  forall pre sep first r, sepok pre sep -> end_ok r ->
  let l := mkLx (pre ++ t ++ r) sep first TUndef false in
  (exists b, act l = (v, mkLx r None b TUndef false)) /\ act (scan l) = act l /\
  lx_err (scan l) = false /\ lx_tok (scan l) <> TNull /\
  tok_delim (lx_tok (scan l)) "]"%char = false /\ tok_delim (lx_tok (scan l)) "}"%char = false.

Lemma reads_map {A C} (act : lexer -> A * lexer) t v (g : A -> C) :
  reads act t v -> reads (fun l => let '(x, l') := act l in (g x, l')) t (g v).
Proof.
  intros H pre sep first r Hs Hr. destruct (H pre sep first r Hs Hr) as ((b & E) & E2 & H3).
  cbv zeta. split; [|split; [|exact H3]].
  - exists b. rewrite E. reflexivity.
  - rewrite E2. reflexivity.
Qed.

Lemma reads_string t v : enc_chars t v -> reads lstring (quote :: t ++ [quote]) v.
Proof.
  intros H pre sep first r Hs Hr. cbv zeta.
  assert (S : scan (mkLx (pre ++ (quote :: t ++ [quote]) ++ r) sep first TUndef false) = mkLx r None first (TStr t) false).
  { rewrite scan_undef, fetch_pre by exact Hs. cbn [app]. rewrite app_cons_assoc. cbn [app].
    apply fetch_string. eapply raw_string_enc, H. }
  unfold lstring. rewrite S. cbn [scan lx_tok lx_err]. rewrite (junescape_enc _ _ H). cbn [consume lx_rest lx_sep lx_first lx_err tok_delim].
  repeat split; [eexists; reflexivity|discriminate].
Qed.

Lemma reads_raw_name t v : enc_chars t v -> reads raw_field_name (quote :: t ++ [quote]) t.
Proof.
  intros H pre sep first r Hs Hr. cbv zeta.
  assert (S : scan (mkLx (pre ++ (quote :: t ++ [quote]) ++ r) sep first TUndef false) = mkLx r None first (TStr t) false).
  { rewrite scan_undef, fetch_pre by exact Hs. cbn [app]. rewrite app_cons_assoc. cbn [app].
    apply fetch_string. eapply raw_string_enc, H. }
  unfold raw_field_name. rewrite S. cbn [scan lx_tok lx_err consume lx_rest lx_sep lx_first tok_delim].
  repeat split; [eexists; reflexivity|discriminate].
Qed.

Lemma reads_int z : (min_int64 <= z <= max_int64)%Z -> reads lint (dec_Z z) z.
Proof.
  intros H pre sep first r Hs Hr. cbv zeta.
  assert (S : scan (mkLx (pre ++ dec_Z z ++ r) sep first TUndef false) = mkLx r None first (TNum (dec_Z z)) false).
  { rewrite scan_undef, fetch_pre by exact Hs. apply fetch_number, Hr. }
  unfold lint. rewrite S. cbn [scan lx_tok lx_err]. rewrite (parse_int_dec_Z z H). cbn [consume lx_rest lx_sep lx_first lx_err tok_delim].
  repeat split; [eexists; reflexivity|discriminate].
Qed.

(** ** Arrays *)
Definition tails (ts : list str) : str := flat_map (fun t => ","%char :: t) ts.

Lemma comma_sep_cons t ts : comma_sep (t :: ts) = t ++ tails ts.
Proof.
  revert t; induction ts as [|u ts IH]; intro t; [cbn; rewrite app_nil_r; reflexivity|].
  change (comma_sep (t :: u :: ts)) with (t ++ ","%char :: comma_sep (u :: ts)). rewrite IH. reflexivity.
Qed.

Lemma tails_end ts c r : is_token_end c = true -> end_ok (tails ts ++ c :: r).
Proof. intro H. destruct ts; [exact H|reflexivity]. Qed.

Lemma items_tail {A} (item : lexer -> A * lexer) ts vs : Forall2 (reads item) ts vs ->
  forall fuel acc r, (length ts < fuel)%nat ->
  exists b, items fuel item (mkLx (tails ts ++ "]"%char :: r) (Some ","%char) false TUndef false) acc =
            (acc ++ vs, mkLx r None b TUndef false).
Proof.
  induction 1 as [|t v ts vs H1 H2 IH]; intros fuel acc r Hf; (destruct fuel as [|fuel]; [lia|]); cbn [items].
  - rewrite app_nil_r. exists false. reflexivity.
  - cbn [tails flat_map length] in *. change (","%char :: t) with ([","%char] ++ t). rewrite <- !app_assoc.
    destruct (H1 [","%char] (Some ","%char) false (tails ts ++ "]"%char :: r)) as ((b & E) & E2 & H3 & H4 & H5 & H6).
    { right; left; split; reflexivity. } { apply tails_end. reflexivity. }
    unfold is_delim. fold (tails ts). rewrite H3, H5. cbn [orb]. rewrite E2, E.
    cbn [want lx_rest lx_sep lx_tok lx_err].
    destruct (IH fuel (acc ++ [v]) r) as (b' & E'); [lia|]. exists b'. unfold want. cbn [lx_rest lx_tok lx_err]. rewrite E'.
    rewrite <- app_assoc. reflexivity.
Qed.

Lemma reads_array {A} fuel (item : lexer -> A * lexer) ts vs : Forall2 (reads item) ts vs -> (length ts < fuel)%nat ->
  reads (array fuel item) (jw_array ts) vs.
Proof.
  intros H Hf pre sep first r Hs Hr. cbv zeta. unfold jw_array.
  set (body := comma_sep ts ++ "]"%char :: r).
  assert (S : scan (mkLx (pre ++ ("["%char :: comma_sep ts ++ ["]"%char]) ++ r) sep first TUndef false) =
     mkLx body None true (TDelim "["%char) false).
  { rewrite scan_undef, fetch_pre by exact Hs. cbn [app]. rewrite app_cons_assoc. reflexivity. }
  assert (D : forall l, scan l = mkLx body None true (TDelim "["%char) false -> delim "["%char l = mkLx body None true TUndef false).
  { intros l E. unfold delim. rewrite E. reflexivity. }
  split; [|split; [|rewrite S; cbn; repeat split; discriminate]].
  2:{ unfold array. rewrite !D; [reflexivity|exact S|]. rewrite S. reflexivity. }
  unfold array. rewrite (D _ S). subst body.
  destruct fuel as [|fuel]; [lia|]. destruct H as [|t v ts vs H1 H2].
  { cbn [items comma_sep app]. exists true. reflexivity. }
  rewrite comma_sep_cons, <- app_assoc. cbn [items].
  destruct (H1 [] None true (tails ts ++ "]"%char :: r)) as ((b & E) & E2 & H3 & H4 & H5 & H6).
  { left; split; reflexivity. } { apply tails_end. reflexivity. }
  cbn [app] in *. unfold is_delim. rewrite H3, H5. cbn [orb]. rewrite E2, E. unfold want. cbn [lx_rest lx_tok lx_err].
  cbn [length] in Hf. destruct (items_tail item ts vs H2 fuel [v] r) as (b' & E'); [lia|]. exists b'. exact E'.
Qed.

Lemma reads_strings fuel l : Forall utf8_text l -> (length l < fuel)%nat -> reads (array fuel lstring) (jw_strings l) l.
Proof.
  intros H Hf. unfold jw_strings. apply reads_array; [|rewrite map_length; exact Hf].
  induction H as [|s l H1 H2 IH]; constructor; [apply reads_string, jw_chars_enc, H1|].
  apply IH. cbn [length] in Hf. lia.
Qed.

Lemma reads_tag fuel l : Forall utf8_text l -> (length l < fuel)%nat -> reads (ltag fuel) (jw_strings l) l.
Proof.
  intros H Hf pre sep first r Hs Hr. destruct (reads_strings fuel l H Hf pre sep first r Hs Hr) as (E & E2 & H3 & H4 & H5).
  cbv zeta in *.
  assert (S : scan (mkLx (pre ++ jw_strings l ++ r) sep first TUndef false) =
     mkLx (comma_sep (map jw_string l) ++ "]"%char :: r) None true (TDelim "["%char) false).
  { rewrite scan_undef, fetch_pre by exact Hs. unfold jw_strings, jw_array. cbn [app]. rewrite app_cons_assoc. reflexivity. }
  unfold ltag, is_null. rewrite S in *. cbn [scan lx_tok].
  rewrite E2. split; [exact E|]. split; [reflexivity|]. split; [reflexivity|]. split; [discriminate|]. split; reflexivity.
Qed.

Lemma reads_tags fuel ts : Forall (Forall utf8_text) ts -> (length ts < fuel)%nat -> (forall t, In t ts -> length t < fuel)%nat ->
  reads (array fuel (ltag fuel)) (jw_array (map jw_strings ts)) ts.
Proof.
  intros H Hf Ht. apply reads_array; [|rewrite map_length; exact Hf]. clear Hf.
  induction H as [|t ts H1 H2 IH]; constructor.
  - apply reads_tag; [exact H1|]. apply Ht. left; reflexivity.
  - apply IH. intros u Hu. apply Ht. right; exact Hu.
Qed.

Lemma reads_ints fuel l : Forall (fun z => min_int64 <= z <= max_int64)%Z l -> (length l < fuel)%nat ->
  reads (array fuel lint) (jw_array (map dec_Z l)) l.
Proof.
  intros H Hf. apply reads_array; [|rewrite map_length; exact Hf]. clear Hf.
  induction H; constructor; [apply reads_int; assumption|assumption].
Qed.

(** ** Objects *)
Definition member_text (p : str * str) : str := quote :: fst p ++ quote :: ":"%char :: snd p.

Inductive chain {A} (name : lexer -> str * lexer) (field : str -> lexer -> A -> A * lexer) : A -> list (str * str) -> A -> Prop :=
| ch_nil a : chain name field a [] a
| ch_cons a tk k t a1 l a2 : reads name (quote :: tk ++ [quote]) k -> reads (fun x => field k x a) t a1 ->
    chain name field a1 l a2 -> chain name field a ((tk, t) :: l) a2.

Lemma chain_app {A} name (field : str -> lexer -> A -> A * lexer) a l1 b l2 c :
  chain name field a l1 b -> chain name field b l2 c -> chain name field a (l1 ++ l2) c.
Proof. induction 1; intro H'; [exact H'|]. cbn [app]. econstructor; eauto. Qed.

Lemma member_step {A} name (field : str -> lexer -> A -> A * lexer) fuel a tk k t a1 pre sep first r :
  reads name (quote :: tk ++ [quote]) k -> reads (fun x => field k x a) t a1 -> sepok pre sep -> end_ok r ->
  members (S fuel) name field (mkLx (pre ++ member_text (tk, t) ++ r) sep first TUndef false) a =
  members fuel name field (mkLx r (Some ","%char) false TUndef false) a1.
Proof.
  intros Hn Hv Hs Hr. unfold member_text. cbn [fst snd].
  replace (pre ++ (quote :: tk ++ quote :: ":"%char :: t) ++ r) with (pre ++ (quote :: tk ++ [quote]) ++ ":"%char :: t ++ r)
    by (cbn [app]; rewrite !app_cons_assoc; reflexivity).
  destruct (Hn pre sep first (":"%char :: t ++ r) Hs) as ((b & E) & E2 & H3 & H4 & H5 & H6); [reflexivity|].
  cbn [members]. unfold is_delim. rewrite H3, H6. cbn [orb]. rewrite E2, E.
  unfold want at 1. cbn [lx_rest lx_tok lx_err].
  destruct (Hv [":"%char] (Some ":"%char) false r) as ((b' & E') & E2' & H3' & H4' & H5' & H6').
  { right; right; split; reflexivity. } { exact Hr. }
  cbn [app] in *. unfold is_null.
  destruct (lx_tok (scan (mkLx (":"%char :: t ++ r) (Some ":"%char) false TUndef false))) eqn:ET; try (exfalso; apply H4'; reflexivity);
    rewrite E2', E'; reflexivity.
Qed.

Lemma members_tail {A} name (field : str -> lexer -> A -> A * lexer) a l a' : chain name field a l a' ->
  forall fuel r, (length l < fuel)%nat ->
  exists b, members fuel name field (mkLx (tails (map member_text l) ++ "}"%char :: r) (Some ","%char) false TUndef false) a =
            (a', mkLx r None b TUndef false).
Proof.
  induction 1 as [a|a tk k t a1 l a2 H1 H2 H3 IH]; intros fuel r Hf; (destruct fuel as [|fuel]; [lia|]).
  - exists false. reflexivity.
  - cbn [length] in Hf.
    change (tails (map member_text ((tk, t) :: l))) with ([","%char] ++ member_text (tk, t) ++ tails (map member_text l)).
    rewrite <- !app_assoc.
    rewrite (member_step name field fuel a tk k t a1 [","%char] (Some ","%char) false) with (1 := H1) (2 := H2);
      [|right; left; split; reflexivity|apply tails_end; reflexivity].
    apply IH. lia.
Qed.

Definition object_text (l : list (str * str)) : str := "{"%char :: comma_sep (map member_text l) ++ ["}"%char].

Lemma comma_sep_length l : (length l <= length (comma_sep l) + 1)%nat.
Proof.
  destruct l as [|t ts]; [cbn; lia|]. rewrite comma_sep_cons, app_length. cbn [length].
  assert (length ts <= length (tails ts))%nat; [|lia].
  unfold tails. induction ts as [|u ts IH]; [cbn; lia|]. cbn [flat_map length]. rewrite app_length. cbn [length]. lia.
Qed.

Lemma comma_sep_in t l : In t l -> (length t <= length (comma_sep l))%nat.
Proof.
  destruct l as [|u ts]; [intros []|]. rewrite comma_sep_cons, app_length. intros [->|H]; [lia|].
  assert (length t <= length (tails ts))%nat; [|lia].
  unfold tails. induction ts as [|w ts IH]; [contradiction|]. cbn [flat_map length]. rewrite app_length. cbn [length].
  destruct H as [->|H]; [lia|]. specialize (IH H). lia.
Qed.

Lemma decode_object_chain {A} name (field : str -> lexer -> A -> A * lexer) a l a' : chain name field a l a' ->
  decode_object (object_text l) name field a = Ok a' /\ fst (is_null (lx_init (object_text l))) = false.
Proof.
  intro H. unfold decode_object, object_text, lx_init, is_null. rewrite scan_undef.
  set (body := comma_sep (map member_text l) ++ ["}"%char]).
  change (fetch ("{"%char :: body) None false) with (mkLx body None true (TDelim "{"%char) false). cbn [lx_tok fst]. split; [|reflexivity].
  change (delim "{"%char (mkLx body None true (TDelim "{"%char) false)) with (mkLx body None true TUndef false).
  assert (Hl : (length l <= length body)%nat).
  { unfold body. rewrite app_length. pose proof (comma_sep_length (map member_text l)) as L. rewrite map_length in L. cbn [length]. lia. }
  cbn [length]. remember (S (S (length body))) as fuel eqn:EF.
  assert (Hf : (S (length l) < fuel)%nat) by lia. clear EF Hl.
  destruct fuel as [|fuel]; [lia|]. subst body.
  destruct H as [a|a tk k t a1 l a2 H1 H2 H3].
  - reflexivity.
  - cbn [map]. rewrite comma_sep_cons. rewrite <- app_assoc.
    pose proof (member_step name field fuel a tk k t a1 [] None true (tails (map member_text l) ++ ["}"%char]) H1 H2) as MS.
    cbn [app] in MS. rewrite MS; [|left; split; reflexivity|apply tails_end; reflexivity].
    cbn [length] in Hf.
    destruct (members_tail name field a1 l a2 H3 fuel []) as (b & E); [lia|]. rewrite E. reflexivity.
Qed.
