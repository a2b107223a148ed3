(** What the easyjson reader makes of any compact JSON text: it reads the values of the right type and fails on the others. *)
From Verif Require Import Base JsonSpec EventModel EventProofs TagsModel FilterModel FilterProofs JLexModel JLexProofs JsonEventProofs.
Local Open Scope nat_scope.

Lemma parse_int_out z : ~ (min_int64 <= z <= max_int64)%Z -> parse_int (dec_Z z) = None.
Proof.
  intro Hz. assert (Hr : ((min_int64 <=? z) && (z <=? max_int64))%Z = false) by lia.
  assert (Hpos : forall n, (Z.of_N n = z) -> parse_int (dec_N n) = None).
  { intros n Hn. destruct (dec_N_head n) as (c & r & E & Hd).
    assert (P := parse_digits_dec_N n). unfold parse_int. rewrite E in *.
    destruct (digit_not_sign c Hd) as [N1 N2].
    assert (match c :: r with
     | "-"%char :: r => match parse_digits r with None => None | Some n => let z := (- Z.of_N n)%Z in
                if ((min_int64 <=? z) && (z <=? max_int64))%Z then Some z else None end
     | "+"%char :: r => match parse_digits r with None => None | Some n => let z := (Z.of_N n)%Z in
                if ((min_int64 <=? z) && (z <=? max_int64))%Z then Some z else None end
     | _ => match parse_digits (c :: r) with None => None | Some n => let z := (Z.of_N n)%Z in
                if ((min_int64 <=? z) && (z <=? max_int64))%Z then Some z else None end
     end = match parse_digits (c :: r) with None => None | Some n => let z := (Z.of_N n)%Z in
                if ((min_int64 <=? z) && (z <=? max_int64))%Z then Some z else None end).
    { destruct c as [[] [] [] [] [] [] [] []]; try reflexivity; exfalso; (apply N1; reflexivity) || (apply N2; reflexivity). }
    cbv zeta beta in H |- *. rewrite H, P, Hn, Hr. reflexivity. }
  unfold dec_Z. destruct z as [|p|p].
  - apply Hpos. reflexivity.
  - apply Hpos. cbn. lia.
  - unfold parse_int. rewrite parse_digits_dec_N. cbv zeta.
    replace (- Z.of_N (N.pos p))%Z with (Z.neg p) by lia. rewrite Hr. reflexivity.
Qed.

(** ** Errors stay *)
Lemma scan_err l : lx_err l = true -> lx_err (scan l) = true.
Proof. intro H. unfold scan. destruct (lx_tok l); try exact H. rewrite H. exact H. Qed.
Lemma delim_err c l : lx_err l = true -> lx_err (delim c l) = true.
Proof. intro H. unfold delim. cbv zeta. rewrite (scan_err l H). reflexivity. Qed.
Lemma items_err {A} fuel (item : lexer -> A * lexer) l acc : lx_err l = true -> lx_err (snd (items fuel item l acc)) = true.
Proof. intro H. destruct fuel; [reflexivity|]. cbn [items]. unfold is_delim. cbv zeta. rewrite (scan_err l H). cbn [orb snd]. apply delim_err, scan_err, H. Qed.
Lemma members_err {A} fuel name (field : str -> lexer -> A -> A * lexer) l a : lx_err l = true -> lx_err (snd (members fuel name field l a)) = true.
Proof. intro H. destruct fuel; [reflexivity|]. cbn [members]. unfold is_delim. cbv zeta. rewrite (scan_err l H). cbn [orb snd]. apply delim_err, scan_err, H. Qed.

(** ** The first token of a value *)
Definition token_of (v : json) (k : tok) : Prop :=
  match v with
  | JNull => k = TNull
  | JBool b => k = TBool b
  | JNum x => k = TNum x
  | JStr s => exists raw, k = TStr raw
  | JArr _ => k = TDelim "["%char
  | JObj _ => k = TDelim "{"%char
  end.
Lemma literal_end s r : end_ok r -> literal (s ++ r) s = Some r.
Proof.
  intro H. unfold literal. assert (P : has_prefix (s ++ r) s = true) by (apply has_prefix_spec; exists r; reflexivity). rewrite P.
  replace (skipn (length s) (s ++ r)) with r; [destruct r as [|c r]; [reflexivity|cbn [end_ok] in H; rewrite H; reflexivity]|].
  clear. induction s as [|c s IH]; [reflexivity|exact IH].
Qed.
Lemma scan_enc t v pre sep first r : enc t v -> sepok pre sep -> end_ok r ->
  exists r' f k, scan (mkLx (pre ++ t ++ r) sep first TUndef false) = mkLx r' None f k false /\ token_of v k /\ match v with JNull | JBool _ | JNum _ | JStr _ => r' = r | _ => True end.
Proof.
  intros HE Hs Hr. rewrite scan_undef, fetch_pre by exact Hs. destruct HE as [| | |z|t s H| |t l H| |t l H].
  - exists r, first, TNull. split; [|split; reflexivity]. pose proof (literal_end (B "null") r Hr) as L. cbn [B list_ascii_of_string app] in *. cbn [fetch]. cbn -[literal]. rewrite L. reflexivity.
  - exists r, first, (TBool true). split; [|split; reflexivity]. pose proof (literal_end (B "true") r Hr) as L. cbn [B list_ascii_of_string app] in *. cbn [fetch]. cbn -[literal]. rewrite L. reflexivity.
  - exists r, first, (TBool false). split; [|split; reflexivity]. pose proof (literal_end (B "false") r Hr) as L. cbn [B list_ascii_of_string app] in *. cbn [fetch]. cbn -[literal]. rewrite L. reflexivity.
  - exists r, first, (TNum (dec_Z z)). split; [apply fetch_number, Hr|split; reflexivity].
  - exists r, first, (TStr t). split; [|split; [eexists; reflexivity|reflexivity]]. cbn [app]. rewrite app_cons_assoc. cbn [app]. apply fetch_string. eapply raw_string_enc, H.
  - eexists _, _, _. split; [reflexivity|]. split; [reflexivity|exact Logic.I].
  - eexists _, _, _. split; [reflexivity|]. split; [reflexivity|exact Logic.I].
  - eexists _, _, _. split; [reflexivity|]. split; [reflexivity|exact Logic.I].
  - eexists _, _, _. split; [reflexivity|]. split; [reflexivity|exact Logic.I].
Qed.

(** ** Reading and failing *)
Definition reads0 {A} (act : lexer -> A * lexer) (t : str) (v : A) : Prop :=
  forall pre sep first r, sepok pre sep -> end_ok r ->
  let l := mkLx (pre ++ t ++ r) sep first TUndef false in
  (exists b, act l = (v, mkLx r None b TUndef false)) /\ act (scan l) = act l.
Definition fails {A} (act : lexer -> A * lexer) (t : str) : Prop :=
  forall pre sep first r, sepok pre sep -> end_ok r ->
  let l := mkLx (pre ++ t ++ r) sep first TUndef false in
  lx_err (snd (act l)) = true /\ act (scan l) = act l.
Definition decides {A} (n : nat) (act : lexer -> A * lexer) (dec : json -> option A) : Prop :=
  forall t v, enc t v -> length t < n -> match dec v with Some a => reads0 act t a | None => fails act t end.

Definition dec_str (v : json) : option str := match v with JStr s => Some s | _ => None end.
Definition dec_int (v : json) : option Z := match v with JNum x => parse_int x | _ => None end.
Fixpoint dec_all {A} (dec : json -> option A) (l : list json) : option (list A) :=
  match l with [] => Some [] | v :: l => match dec v, dec_all dec l with Some a, Some r => Some (a :: r) | _, _ => None end end.
Definition dec_arr {A} (dec : json -> option A) (v : json) : option (list A) := match v with JArr l => dec_all dec l | _ => None end.
Definition dec_tag (v : json) : option tag := match v with JNull => Some [] | _ => dec_arr dec_str v end.

Lemma reads_reads0 {A} (act : lexer -> A * lexer) t v : reads act t v -> reads0 act t v.
Proof. intros H pre sep first r Hs Hr. destruct (H pre sep first r Hs Hr) as (E & E2 & _). split; assumption. Qed.
Lemma enc_string t s : enc t (JStr s) -> exists u, t = quote :: u ++ [quote] /\ enc_chars u s.
Proof. intro H. inversion H; subst. eauto. Qed.
Lemma enc_number t x : enc t (JNum x) -> exists z, x = dec_Z z /\ t = dec_Z z.
Proof. intro H. inversion H; subst. eauto. Qed.

Lemma decides_string n : decides n lstring dec_str.
Proof.
  intros t v HE _. destruct v; cbn [dec_str]; try (apply enc_string in HE as (u & -> & HU); apply reads_reads0, reads_string, HU);
    intros pre sep first r Hs Hr; destruct (scan_enc _ _ pre sep first r HE Hs Hr) as (r' & f & k & S & T & _); cbn [token_of] in T; subst k; cbv zeta; unfold lstring; rewrite S; split; reflexivity.
Qed.
Lemma decides_int n : decides n lint dec_int.
Proof.
  intros t v HE _. destruct v; cbn [dec_int];
    try (intros pre sep first r Hs Hr; destruct (scan_enc _ _ pre sep first r HE Hs Hr) as (r' & f & k & S & T & _); cbn [token_of] in T; try (destruct T as (raw & T)); subst k; cbv zeta; unfold lint; rewrite S; split; reflexivity).
  apply enc_number in HE as (z & -> & ->).
  destruct (Z_le_dec min_int64 z) as [L|L]; [destruct (Z_le_dec z max_int64) as [L'|L']|].
  - rewrite parse_int_dec_Z by lia. apply reads_reads0, reads_int. lia.
  - rewrite parse_int_out by lia. intros pre sep first r Hs Hr. cbv zeta. unfold lint. rewrite scan_undef, fetch_pre, fetch_number by assumption. cbn [scan lx_tok lx_err]. rewrite parse_int_out by lia. split; reflexivity.
  - rewrite parse_int_out by lia. intros pre sep first r Hs Hr. cbv zeta. unfold lint. rewrite scan_undef, fetch_pre, fetch_number by assumption. cbn [scan lx_tok lx_err]. rewrite parse_int_out by lia. split; reflexivity.
Qed.

Lemma enc_arr_texts t l : enc t (JArr l) -> exists ts, Forall2 enc ts l /\ t = jw_array ts.
Proof.
  intro H. inversion H as [| | | | |E|t0 l0 HE| |]; subst; [exists []; split; [constructor|reflexivity]|].
  assert (G : forall t l, enc_elems t l -> exists u ts, Forall2 enc (u :: ts) l /\ t = u ++ tails ts ++ ["]"%char]).
  { clear. induction 1 as [t v H|t v t' l H H' (u & ts & F & ->)].
    - exists t, []. split; [constructor; [exact H|constructor]|reflexivity].
    - exists t, (u :: ts). split; [constructor; assumption|]. cbn [tails flat_map]. unfold tails. cbn [app]. rewrite <- app_assoc. reflexivity. }
  destruct (G _ _ HE) as (u & ts & F & ->). exists (u :: ts). split; [exact F|]. unfold jw_array. rewrite comma_sep_cons, <- app_assoc. reflexivity.
Qed.
Lemma not_closing t v pre sep first r c : enc t v -> sepok pre sep -> end_ok r -> c = "]"%char \/ c = "}"%char ->
  lx_err (scan (mkLx (pre ++ t ++ r) sep first TUndef false)) || tok_delim (lx_tok (scan (mkLx (pre ++ t ++ r) sep first TUndef false))) c = false.
Proof.
  intros HE Hs Hr HC. destruct (scan_enc _ _ pre sep first r HE Hs Hr) as (r' & f & k & S & T & _). rewrite S. cbn [lx_err lx_tok orb].
  destruct v; cbn [token_of] in T; try (destruct T as (raw & T)); subst k; try reflexivity; destruct HC as [-> | ->]; reflexivity.
Qed.
Lemma decides_items_tail {A} n (item : lexer -> A * lexer) dec ts vs : decides n item dec -> Forall2 enc ts vs -> (forall t, In t ts -> length t < n) ->
  forall fuel acc r, length ts < fuel ->
  match dec_all dec vs with
  | Some l => exists b, items fuel item (mkLx (tails ts ++ "]"%char :: r) (Some ","%char) false TUndef false) acc = (acc ++ l, mkLx r None b TUndef false)
  | None => lx_err (snd (items fuel item (mkLx (tails ts ++ "]"%char :: r) (Some ","%char) false TUndef false) acc)) = true
  end.
Proof.
  intros D F. induction F as [|t v ts vs H1 H2 IH]; intros LN fuel acc r Hf; (destruct fuel as [|fuel]; [lia|]).
  - cbn [dec_all]. exists false. rewrite app_nil_r. reflexivity.
  - cbn [dec_all length] in *. change (tails (t :: ts)) with ([","%char] ++ t ++ tails ts). rewrite <- !app_assoc.
    assert (SO : sepok [","%char] (Some ","%char)) by (right; left; split; reflexivity). assert (EO : end_ok (tails ts ++ "]"%char :: r)) by (apply tails_end; reflexivity).
    pose proof (not_closing t v [","%char] (Some ","%char) false (tails ts ++ "]"%char :: r) "]"%char H1 SO EO (or_introl eq_refl)) as NC.
    specialize (D t v H1 (LN t (or_introl eq_refl))). cbn [items]. unfold is_delim. cbv zeta. rewrite NC.
    destruct (dec v) as [a|].
    + destruct (D [","%char] (Some ","%char) false _ SO EO) as ((b & E) & E2). rewrite E2, E. unfold want. cbn [lx_rest lx_tok lx_err].
      specialize (IH (fun t0 H => LN t0 (or_intror H)) fuel (acc ++ [a]) r). destruct (dec_all dec vs) as [l|].
      * destruct IH as (b' & E'); [lia|]. exists b'. rewrite E', <- app_assoc. reflexivity.
      * apply IH. lia.
    + destruct (D [","%char] (Some ","%char) false _ SO EO) as (E & E2). rewrite E2. destruct (item _) as [a l]. cbn [snd] in E. apply items_err. exact E.
Qed.
Lemma decides_array {A} n fuel (item : lexer -> A * lexer) dec : decides n item dec -> n <= fuel -> decides n (array fuel item) (dec_arr dec).
Proof.
  intros D NF t v HE HL. destruct v as [| | | |l|]; cbn [dec_arr];
    try (intros pre sep first r Hs Hr; destruct (scan_enc _ _ pre sep first r HE Hs Hr) as (r' & f & k & S & T & _); cbn [token_of] in T; try (destruct T as (raw & T)); subst k; cbv zeta; unfold array, delim; rewrite S; split; [apply items_err; reflexivity|reflexivity]).
  destruct (enc_arr_texts t l HE) as (ts & F & ->).
  assert (LC : length (comma_sep ts) < n) by (unfold jw_array in HL; cbn [length] in HL; rewrite app_length in HL; cbn [length] in HL; lia).
  assert (LT : length ts < fuel). { pose proof (comma_sep_length ts). unfold jw_array in HL. cbn [length] in HL. rewrite app_length in HL. cbn [length] in HL. lia. }
  assert (LI : forall t, In t ts -> length t < n) by (intros t HT; pose proof (comma_sep_in t ts HT); lia).
  assert (G : forall pre sep first r, sepok pre sep -> end_ok r -> let l0 := mkLx (pre ++ jw_array ts ++ r) sep first TUndef false in
     array fuel item (scan l0) = array fuel item l0 /\ array fuel item l0 = items fuel item (mkLx (comma_sep ts ++ "]"%char :: r) None true TUndef false) []).
  { intros pre sep first r Hs Hr. cbv zeta. unfold array, delim. rewrite scan_undef, fetch_pre by exact Hs. unfold jw_array. cbn [app]. rewrite app_cons_assoc. split; reflexivity. }
  assert (I : forall r, match dec_all dec l with
     | Some vs => exists b, items fuel item (mkLx (comma_sep ts ++ "]"%char :: r) None true TUndef false) [] = (vs, mkLx r None b TUndef false)
     | None => lx_err (snd (items fuel item (mkLx (comma_sep ts ++ "]"%char :: r) None true TUndef false) [])) = true end).
  { intro r. destruct fuel as [|fuel]; [lia|]. destruct F as [|t v ts vs H1 H2]; [exists true; reflexivity|].
    rewrite comma_sep_cons, <- app_assoc. cbn [items length] in *.
    assert (SO : sepok [] None) by (left; split; reflexivity). assert (EO : end_ok (tails ts ++ "]"%char :: r)) by (apply tails_end; reflexivity).
    pose proof (not_closing t v [] None true _ "]"%char H1 SO EO (or_introl eq_refl)) as NC. pose proof (D t v H1 (LI t (or_introl eq_refl))) as D1.
    unfold is_delim. cbv zeta. cbn [app] in NC. rewrite NC. cbn [dec_all]. destruct (dec v) as [a|].
    - destruct (D1 [] None true _ SO EO) as ((b & E) & E2). cbn [app] in E, E2. rewrite E2, E. unfold want. cbn [lx_rest lx_tok lx_err].
      pose proof (decides_items_tail n item dec ts vs D H2 (fun t0 H => LI t0 (or_intror H)) fuel [a] r ltac:(lia)) as IT. destruct (dec_all dec vs); exact IT.
    - destruct (D1 [] None true _ SO EO) as (E & E2). cbn [app] in E, E2. rewrite E2. destruct (item _) as [a l0]. cbn [snd] in E. apply items_err. exact E. }
  destruct (dec_all dec l) as [vs|] eqn:DA.
  - intros pre sep first r Hs Hr. destruct (G pre sep first r Hs Hr) as (G1 & G2). cbv zeta. split; [|exact G1]. cbv zeta in G2. rewrite G2. apply I.
  - intros pre sep first r Hs Hr. destruct (G pre sep first r Hs Hr) as (G1 & G2). cbv zeta. split; [|exact G1]. cbv zeta in G2. rewrite G2. apply I.
Qed.
Lemma decides_tag n fuel : n <= fuel -> decides n (ltag fuel) dec_tag.
Proof.
  intros NF t v HE HL. pose proof (decides_array n fuel lstring dec_str (decides_string n) NF t v HE HL) as D.
  destruct (match v with JNull => true | _ => false end) eqn:NV.
  - destruct v; try discriminate. cbn [dec_tag]. intros pre sep first r Hs Hr. destruct (scan_enc _ _ pre sep first r HE Hs Hr) as (r' & f & k & S & T & ->). cbn [token_of] in T. subst k.
    cbv zeta. unfold ltag, is_null, skip. rewrite S. cbn [scan lx_tok consume lx_rest lx_sep lx_first lx_err]. split; [eexists; reflexivity|reflexivity].
  - assert (ED : dec_tag v = dec_arr dec_str v) by (destruct v; [discriminate|reflexivity..]). rewrite ED.
    assert (G : forall pre sep first r, sepok pre sep -> end_ok r -> let l := mkLx (pre ++ t ++ r) sep first TUndef false in ltag fuel l = array fuel lstring (scan l) /\ ltag fuel (scan l) = array fuel lstring (scan l)).
    { intros pre sep first r Hs Hr. destruct (scan_enc _ _ pre sep first r HE Hs Hr) as (r' & f & k & S & T & _). cbv zeta. unfold ltag, is_null. rewrite S.
      destruct v; cbn [token_of] in T; try (destruct T as (raw & T)); subst k; try discriminate; split; reflexivity. }
    destruct (dec_arr dec_str v) as [a|]; intros pre sep first r Hs Hr; destruct (D pre sep first r Hs Hr) as (D1 & D2); destruct (G pre sep first r Hs Hr) as (G1 & G2); cbv zeta in *; rewrite G1, G2, D2; split; try reflexivity; exact D1.
Qed.

(** ** Objects *)
Record mtext := mkM { m_raw : str; m_key : str; m_val : str; m_json : json }.   (* the name as written and as read, the value as written and as meant *)
Definition m_text (m : mtext) : str * str := (m_raw m, m_val m).
Lemma finish_err {A} (p : A * lexer) : lx_err (snd p) = true -> finish p = Err.
Proof. destruct p as [a l]. cbn [snd finish]. intros ->. reflexivity. Qed.
Section Object.
Context {A : Type}.
Variables (name : lexer -> str * lexer) (field : str -> lexer -> A -> A * lexer) (fdec : str -> json -> A -> option A).
Definition m_ok (m : mtext) : Prop :=
  reads name (quote :: m_raw m ++ [quote]) (m_key m) /\ enc (m_val m) (m_json m) /\
  (m_json m <> JNull -> forall a, match fdec (m_key m) (m_json m) a with Some a' => reads0 (fun x => field (m_key m) x a) (m_val m) a' | None => fails (fun x => field (m_key m) x a) (m_val m) end).
Fixpoint fold_members (ms : list mtext) (a : A) : option A :=
  match ms with
  | [] => Some a
  | m :: ms => match m_json m with JNull => fold_members ms a | v => match fdec (m_key m) v a with Some a' => fold_members ms a' | None => None end end
  end.
Lemma member_decides m fuel a pre sep first r : m_ok m -> sepok pre sep -> end_ok r ->
  let go := members (S fuel) name field (mkLx (pre ++ member_text (m_text m) ++ r) sep first TUndef false) a in
  match fold_members [m] a with
  | Some a' => go = members fuel name field (mkLx r (Some ","%char) false TUndef false) a'
  | None => lx_err (snd go) = true
  end.
Proof.
  intros (Hn & HE & HF) Hs Hr. unfold member_text, m_text. cbn [fst snd].
  replace (pre ++ (quote :: m_raw m ++ quote :: ":"%char :: m_val m) ++ r) with (pre ++ (quote :: m_raw m ++ [quote]) ++ ":"%char :: m_val m ++ r)
    by (cbn [app]; rewrite !app_cons_assoc; reflexivity).
  destruct (Hn pre sep first (":"%char :: m_val m ++ r) Hs) as ((b & E) & E2 & H3 & H4 & H5 & H6); [reflexivity|].
  cbv zeta. cbn [members]. unfold is_delim. cbv zeta. rewrite H3, H6. cbn [orb]. rewrite E2, E. change (want ":"%char (mkLx (":"%char :: m_val m ++ r) None b TUndef false)) with (mkLx (":"%char :: m_val m ++ r) (Some ":"%char) false TUndef false).
  assert (SO : sepok [":"%char] (Some ":"%char)) by (right; right; split; reflexivity).
  destruct (scan_enc _ _ [":"%char] (Some ":"%char) false r HE SO Hr) as (r' & f & k & S & T & RR). cbn [app] in S.
  unfold is_null. cbv zeta. cbn [fold_members]. destruct (match m_json m with JNull => true | _ => false end) eqn:NV.
  - destruct (m_json m); try discriminate. cbn [token_of] in T. subst k r'. rewrite S. cbn [lx_tok]. reflexivity.
  - assert (NN : m_json m <> JNull) by (intro Q; rewrite Q in NV; discriminate). specialize (HF NN a).
    assert (NT : match k with TNull => true | _ => false end = false) by (destruct (m_json m); cbn [token_of] in T; try (destruct T as (raw & T)); subst k; try reflexivity; congruence).
    rewrite S. cbn [lx_tok]. rewrite NT, <- S.
    assert (FM : match m_json m with JNull => Some a | v => match fdec (m_key m) v a with Some a' => Some a' | None => None end end = fdec (m_key m) (m_json m) a)
      by (destruct (m_json m); [congruence| | | | |]; match goal with |- match ?x with _ => _ end = _ => destruct x; reflexivity end).
    rewrite FM. destruct (fdec (m_key m) (m_json m) a) as [a'|].
    + destruct (HF [":"%char] (Some ":"%char) false r SO Hr) as ((b' & E') & E2'). match goal with |- context[field (m_key m) ?x a] => replace (field (m_key m) x a) with (a', mkLx r None b' TUndef false) by (symmetry; etransitivity; [exact E2'|exact E']) end. reflexivity.
    + destruct (HF [":"%char] (Some ":"%char) false r SO Hr) as (E' & E2'). match goal with |- context[field (m_key m) ?x a] => assert (E3 : lx_err (snd (field (m_key m) x a)) = true) by (cbv zeta in E2'; cbn [app] in E2'; etransitivity; [apply (f_equal (fun p => lx_err (snd p))); exact E2'|exact E']); destruct (field (m_key m) x a) as [a' l'] end. cbn [snd] in E3. apply members_err. exact E3.
Qed.
Lemma fold_cons m ms a : fold_members (m :: ms) a = match fold_members [m] a with Some a' => fold_members ms a' | None => None end.
Proof. cbn [fold_members]. destruct (m_json m); try reflexivity; destruct (fdec _ _ _); reflexivity. Qed.
Lemma members_decide ms : Forall m_ok ms -> forall fuel a r, length ms < fuel ->
  let go := members fuel name field (mkLx (tails (map member_text (map m_text ms)) ++ "}"%char :: r) (Some ","%char) false TUndef false) a in
  match fold_members ms a with
  | Some a' => exists b, go = (a', mkLx r None b TUndef false)
  | None => lx_err (snd go) = true
  end.
Proof.
  induction 1 as [|m ms H1 H2 IH]; intros fuel a r Hf; (destruct fuel as [|fuel]; [lia|]).
  - exists false. reflexivity.
  - cbn [length] in Hf. cbn [map]. change (tails (member_text (m_text m) :: ?x)) with ([","%char] ++ member_text (m_text m) ++ tails x). rewrite <- !app_assoc. rewrite fold_cons.
    pose proof (member_decides m fuel a [","%char] (Some ","%char) false (tails (map member_text (map m_text ms)) ++ "}"%char :: r) H1 ltac:(right; left; split; reflexivity) ltac:(apply tails_end; reflexivity)) as MD.
    cbv zeta in *. destruct (fold_members [m] a) as [a'|]; [|exact MD]. rewrite MD. apply IH. lia.
Qed.
Lemma object_decides ms a : Forall m_ok ms -> decode_object (object_text (map m_text ms)) name field a = match fold_members ms a with Some a' => Ok a' | None => Err end.
Proof.
  intro H. unfold decode_object, object_text, lx_init, is_null. rewrite scan_undef.
  set (body := comma_sep (map member_text (map m_text ms)) ++ ["}"%char]).
  change (fetch ("{"%char :: body) None false) with (mkLx body None true (TDelim "{"%char) false). cbn [lx_tok].
  change (delim "{"%char (mkLx body None true (TDelim "{"%char) false)) with (mkLx body None true TUndef false).
  assert (Hl : length ms <= length body).
  { unfold body. rewrite app_length. pose proof (comma_sep_length (map member_text (map m_text ms))) as L. rewrite !map_length in L. cbn [length]. lia. }
  cbn [length]. remember (S (S (length body))) as fuel eqn:EF.
  assert (Hf : S (length ms) < fuel) by lia. clear EF Hl.
  destruct fuel as [|fuel]; [lia|]. subst body.
  destruct H as [|m ms H1 H2]; [reflexivity|].
  cbn [map]. rewrite comma_sep_cons, <- app_assoc, fold_cons.
  pose proof (member_decides m fuel a [] None true (tails (map member_text (map m_text ms)) ++ ["}"%char]) H1 ltac:(left; split; reflexivity) ltac:(apply tails_end; reflexivity)) as MD.
  cbv zeta in MD. cbn [app] in MD. destruct (fold_members [m] a) as [a'|].
  - rewrite MD. cbn [length] in Hf. pose proof (members_decide ms H2 fuel a' [] ltac:(lia)) as MT. cbv zeta in MT. destruct (fold_members ms a') as [a2|].
    + destruct MT as (b & ->). reflexivity.
    + apply finish_err. exact MT.
  - apply finish_err. exact MD.
Qed.
End Object.

(** ** Values of unknown fields of a filter are skipped *)
Definition bracket (st en : ascii) : Prop := (st = "["%char /\ en = "]"%char) \/ (st = "{"%char /\ en = "}"%char).
Definition after (lv : nat) (r : str) (st en : ascii) : option str := match lv with O => Some r | S n => skip_rec r st en (S n) false false end.
Lemma skip_chars u s st en lv r : bracket st en -> enc_chars u s -> skip_rec (u ++ quote :: r) st en lv true false = skip_rec r st en lv false false.
Proof.
  intros HB H. induction H as [|t v t' v' H1 H2 IH].
  - cbn [app skip_rec negb]. rewrite !andb_false_r. change (ceqb quote bslash) with false. cbn [andb]. rewrite ceqb_refl. reflexivity.
  - rewrite <- app_assoc. destruct H1 as [c H1 H3 H4|e v H|a b c d cp H1 H3]; cbn [app skip_rec negb]; rewrite ?andb_false_r.
    + rewrite !ceqb_neq by assumption. exact IH.
    + rewrite ceqb_refl. cbn [andb negb skip_rec]. destruct (ceqb e bslash); cbn [andb negb]; [exact IH|]. destruct (ceqb e quote); cbn [andb]; exact IH.
    + rewrite ceqb_refl. cbn [andb negb]. change (ceqb "u" bslash) with false. change (ceqb "u" quote) with false. cbn [andb].
      destruct (hex4_some _ _ _ _ _ H1) as (x & y & z & w & E1 & E2 & E3 & E4).
      apply hex_val_not_special in E1 as [-> ->], E2 as [-> ->], E3 as [-> ->], E4 as [-> ->]. cbn [andb]. exact IH.
Qed.
Definition dull (c : ascii) : bool := negb (ceqb c "["%char || ceqb c "]"%char || ceqb c "{"%char || ceqb c "}"%char || ceqb c quote).
Lemma skip_dull1 c st en lv r : bracket st en -> dull c = true -> skip_rec (c :: r) st en lv false false = skip_rec r st en lv false false.
Proof.
  intros HB H. unfold dull in H. apply negb_true_iff in H. do 4 (apply orb_false_iff in H as [H ?]). cbn [skip_rec].
  destruct HB as [[-> ->]|[-> ->]]; repeat match goal with Q : ceqb c _ = false |- _ => rewrite Q; clear Q end; cbn [andb]; rewrite ?andb_false_r; destruct (ceqb c bslash); reflexivity.
Qed.
Lemma skip_dull t st en lv r : bracket st en -> forallb dull t = true -> skip_rec (t ++ r) st en lv false false = skip_rec r st en lv false false.
Proof.
  intros HB. induction t as [|c t IH]; [reflexivity|]. cbn [forallb app]. intro H. apply andb_true_iff in H as [H1 H2]. rewrite skip_dull1 by assumption. apply IH, H2.
Qed.
Lemma digit_dull c : is_digit c || ceqb c "-"%char = true -> dull c = true.
Proof.
  assert (G : forall c, implb (is_digit c || ceqb c "-"%char) (dull c) = true) by (apply bytes_forallb; vm_compute; reflexivity).
  intro H. specialize (G c). rewrite H in G. exact G.
Qed.
Lemma number_dull z : forallb dull (dec_Z z) = true.
Proof.
  destruct (dec_Z_shape z) as (c & t & -> & H1 & H2). cbn [forallb]. rewrite (digit_dull c H1). cbn [andb]. apply forallb_forall. intros x HX.
  apply digit_dull. rewrite forallb_forall in H2. rewrite (H2 x HX). reflexivity.
Qed.
Lemma skip_quote st en lv r : bracket st en -> skip_rec (quote :: r) st en lv false false = skip_rec r st en lv true false.
Proof. intros [[-> ->]|[-> ->]]; reflexivity. Qed.
Lemma skip_enc st en : bracket st en ->
  (forall t v, enc t v -> forall lv r, skip_rec (t ++ r) st en (S lv) false false = skip_rec r st en (S lv) false false) /\
  (forall t l, enc_elems t l -> forall lv r, skip_rec (t ++ r) st en (S lv) false false = if ceqb st "["%char then after lv r st en else skip_rec r st en (S lv) false false) /\
  (forall t l, enc_members t l -> forall lv r, skip_rec (t ++ r) st en (S lv) false false = if ceqb st "{"%char then after lv r st en else skip_rec r st en (S lv) false false).
Proof.
  intro HB. apply enc_mutind; intros.
  - apply skip_dull; [exact HB|reflexivity].
  - apply skip_dull; [exact HB|reflexivity].
  - apply skip_dull; [exact HB|reflexivity].
  - apply skip_dull; [exact HB|apply number_dull].
  - cbn [app]. rewrite skip_quote by exact HB. rewrite <- app_assoc. cbn [app]. eapply skip_chars; [exact HB|eassumption].
  - destruct HB as [[-> ->]|[-> ->]]; reflexivity.
  - cbn [app]. destruct HB as [[-> ->]|[-> ->]].
    + change (skip_rec ("["%char :: t ++ r) "[" "]" (S lv) false false) with (skip_rec (t ++ r) "[" "]" (S (S lv)) false false). rewrite H. reflexivity.
    + change (skip_rec ("["%char :: t ++ r) "{" "}" (S lv) false false) with (skip_rec (t ++ r) "{" "}" (S lv) false false). rewrite H. reflexivity.
  - destruct HB as [[-> ->]|[-> ->]]; reflexivity.
  - cbn [app]. destruct HB as [[-> ->]|[-> ->]].
    + change (skip_rec ("{"%char :: t ++ r) "[" "]" (S lv) false false) with (skip_rec (t ++ r) "[" "]" (S lv) false false). rewrite H. reflexivity.
    + change (skip_rec ("{"%char :: t ++ r) "{" "}" (S lv) false false) with (skip_rec (t ++ r) "{" "}" (S (S lv)) false false). rewrite H. reflexivity.
  - rewrite <- app_assoc, H. cbn [B list_ascii_of_string app]. destruct HB as [[-> ->]|[-> ->]]; destruct lv; reflexivity.
  - rewrite <- app_assoc, H. cbn [app]. rewrite skip_dull1 by (exact HB || reflexivity). apply H0.
  - cbn [app]. rewrite skip_quote by exact HB. rewrite <- app_assoc. cbn [app]. rewrite (skip_chars tk k) by assumption. rewrite skip_dull1 by (exact HB || reflexivity).
    rewrite <- app_assoc, H. cbn [B list_ascii_of_string app]. destruct HB as [[-> ->]|[-> ->]]; destruct lv; reflexivity.
  - cbn [app]. rewrite skip_quote by exact HB. rewrite <- app_assoc. cbn [app]. rewrite (skip_chars tk k) by assumption. rewrite skip_dull1 by (exact HB || reflexivity).
    rewrite <- app_assoc, H. cbn [app]. rewrite skip_dull1 by (exact HB || reflexivity). apply H0.
Qed.
Lemma skip_recursive_reads {A} (a : A) t v : enc t v -> reads0 (fun l => (a, skip_recursive l)) t a.
Proof.
  intros HE pre sep first r Hs Hr. cbv zeta. 
  assert (G : forall l k r' f, scan l = mkLx r' None f k false -> k <> TUndef -> skip_recursive (scan l) = skip_recursive l).
  { intros l k r' f S N. unfold skip_recursive. rewrite S. destruct k; try reflexivity. congruence. }
  destruct (scan_enc _ _ pre sep first r HE Hs Hr) as (r' & f & k & S & T & RR).
  assert (NU : k <> TUndef) by (destruct v; cbn [token_of] in T; try (destruct T as (raw & T)); subst k; discriminate).
  split; [|rewrite (G _ _ _ _ S NU); reflexivity].
  destruct v as [| | | |l|l]; cbn [token_of] in T; try (destruct T as (raw & T)); subst k; try (subst r'; exists f; unfold skip_recursive; rewrite S; reflexivity).
  - exists true. f_equal. unfold skip_recursive. rewrite scan_undef, fetch_pre by exact Hs. inversion HE; subst.
    + reflexivity.
    + cbn [app]. change (fetch ("["%char :: t0 ++ r) None first) with (mkLx (t0 ++ r) None true (TDelim "["%char) false). cbn [lx_tok lx_rest lx_sep lx_first lx_err].
      destruct (skip_enc "[" "]" (or_introl (conj eq_refl eq_refl))) as (_ & SE & _). change (ceqb "[" "{") with false. change (ceqb "[" "[") with true. cbv iota. match goal with Q : enc_elems _ _ |- _ => rewrite (SE _ _ Q 0 r) end. reflexivity.
  - exists true. f_equal. unfold skip_recursive. rewrite scan_undef, fetch_pre by exact Hs. inversion HE; subst.
    + reflexivity.
    + cbn [app]. change (fetch ("{"%char :: t0 ++ r) None first) with (mkLx (t0 ++ r) None true (TDelim "{"%char) false). cbn [lx_tok lx_rest lx_sep lx_first lx_err].
      destruct (skip_enc "{" "}" (or_intror (conj eq_refl eq_refl))) as (_ & _ & SE). change (ceqb "{" "{") with true. cbv iota. match goal with Q : enc_members _ _ |- _ => rewrite (SE _ _ Q 0 r) end. reflexivity.
Qed.
