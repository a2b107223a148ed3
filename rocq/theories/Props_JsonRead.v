(** C17, C18: what the event and filter decoders make of any compact JSON text, not only of what the encoders write
    (/repo/event_easyjson.go:16-94, /repo/filter_easyjson.go:16-165). *)
From Verif Require Import Base JsonSpec EventModel EventProofs TagsModel FilterModel FilterProofs JLexModel JLexProofs JsonEventProofs JReadProofs Props_Json.
Local Open Scope nat_scope.

(** ** The specification: what each member of the object does *)
Inductive tag_of : json -> tag -> Prop :=
| to_list l : tag_of (JArr (map JStr l)) l
| to_null : tag_of JNull [].
Inductive reads_member : str -> json -> event -> event -> Prop :=
| rm_null k e : reads_member k JNull e e
| rm_id s e : reads_member (B "id") (JStr s) e (mkEvent s (ev_pubkey e) (ev_created_at e) (ev_kind e) (ev_tags e) (ev_content e) (ev_sig e))
| rm_pubkey s e : reads_member (B "pubkey") (JStr s) e (mkEvent (ev_id e) s (ev_created_at e) (ev_kind e) (ev_tags e) (ev_content e) (ev_sig e))
| rm_created z e : int64 z -> reads_member (B "created_at") (JNum (dec_Z z)) e (mkEvent (ev_id e) (ev_pubkey e) z (ev_kind e) (ev_tags e) (ev_content e) (ev_sig e))
| rm_kind z e : int64 z -> reads_member (B "kind") (JNum (dec_Z z)) e (mkEvent (ev_id e) (ev_pubkey e) (ev_created_at e) z (ev_tags e) (ev_content e) (ev_sig e))
| rm_tags l ts e : Forall2 tag_of l ts -> reads_member (B "tags") (JArr l) e (mkEvent (ev_id e) (ev_pubkey e) (ev_created_at e) (ev_kind e) ts (ev_content e) (ev_sig e))
| rm_content s e : reads_member (B "content") (JStr s) e (mkEvent (ev_id e) (ev_pubkey e) (ev_created_at e) (ev_kind e) (ev_tags e) s (ev_sig e))
| rm_sig s e : reads_member (B "sig") (JStr s) e (mkEvent (ev_id e) (ev_pubkey e) (ev_created_at e) (ev_kind e) (ev_tags e) (ev_content e) s).
Definition event_names : list str := map B ["id"; "pubkey"; "created_at"; "kind"; "tags"; "content"; "sig"]%string.

Definition filter_names : list str := map B ["ids"; "kinds"; "authors"; "since"; "until"; "limit"; "search"]%string.
Definition tag_name (k n : str) : Prop := n <> [] /\ k = "#"%char :: n.
Inductive reads_fmember : str -> json -> nfilter -> nfilter -> Prop :=
| rf_null k f : reads_fmember k JNull f f
| rf_ids l f : reads_fmember (B "ids") (JArr (map JStr l)) f (mkFilter (Some l) (f_kinds f) (f_authors f) (f_tags f) (f_since f) (f_until f) (f_limit f) (f_search f) (f_limit_zero f))
| rf_kinds l f : Forall int64 l -> reads_fmember (B "kinds") (JArr (map (fun z => JNum (dec_Z z)) l)) f (mkFilter (f_ids f) (Some l) (f_authors f) (f_tags f) (f_since f) (f_until f) (f_limit f) (f_search f) (f_limit_zero f))
| rf_authors l f : reads_fmember (B "authors") (JArr (map JStr l)) f (mkFilter (f_ids f) (f_kinds f) (Some l) (f_tags f) (f_since f) (f_until f) (f_limit f) (f_search f) (f_limit_zero f))
| rf_since z f : int64 z -> reads_fmember (B "since") (JNum (dec_Z z)) f (mkFilter (f_ids f) (f_kinds f) (f_authors f) (f_tags f) (Some z) (f_until f) (f_limit f) (f_search f) (f_limit_zero f))
| rf_until z f : int64 z -> reads_fmember (B "until") (JNum (dec_Z z)) f (mkFilter (f_ids f) (f_kinds f) (f_authors f) (f_tags f) (f_since f) (Some z) (f_limit f) (f_search f) (f_limit_zero f))
| rf_limit z f lz : int64 z -> (lz = true <-> z = 0%Z \/ f_limit_zero f = true) -> reads_fmember (B "limit") (JNum (dec_Z z)) f (mkFilter (f_ids f) (f_kinds f) (f_authors f) (f_tags f) (f_since f) (f_until f) z (f_search f) lz)
| rf_search s f : reads_fmember (B "search") (JStr s) f (mkFilter (f_ids f) (f_kinds f) (f_authors f) (f_tags f) (f_since f) (f_until f) (f_limit f) s (f_limit_zero f))
| rf_tag k n l f : tag_name k n -> reads_fmember k (JArr (map JStr l)) f (mkFilter (f_ids f) (f_kinds f) (f_authors f) (map_set n (Some l) (f_tags f)) (f_since f) (f_until f) (f_limit f) (f_search f) (f_limit_zero f))
| rf_unknown k v f : ~ In k filter_names -> (forall n, ~ tag_name k n) -> reads_fmember k v f f.

Inductive in_turn_members {A} (step : str -> json -> A -> A -> Prop) : list mtext -> A -> A -> Prop :=
| it_nil a : in_turn_members step [] a a
| it_cons m ms a b c : step (m_key m) (m_json m) a b -> in_turn_members step ms b c -> in_turn_members step (m :: ms) a c.

(** ** The model's decisions are the specification's *)
Lemma decides_map {A C} n (act : lexer -> A * lexer) dec (g : A -> C) : decides n act dec -> decides n (fun l => let '(x, l') := act l in (g x, l')) (fun v => option_map g (dec v)).
Proof.
  intros D t v HE HL. specialize (D t v HE HL). destruct (dec v) as [a|]; cbn [option_map]; intros pre sep first r Hs Hr; destruct (D pre sep first r Hs Hr) as (D1 & D2); cbv zeta in *; rewrite D2; (split; [|reflexivity]).
  - destruct D1 as (b & ->). exists b. reflexivity.
  - destruct (act _) as [x l']. exact D1.
Qed.
Definition edec (k : str) (v : json) (e : event) : option event :=
  if seqb k (B "id") then option_map (fun s => mkEvent s (ev_pubkey e) (ev_created_at e) (ev_kind e) (ev_tags e) (ev_content e) (ev_sig e)) (dec_str v)
  else if seqb k (B "pubkey") then option_map (fun s => mkEvent (ev_id e) s (ev_created_at e) (ev_kind e) (ev_tags e) (ev_content e) (ev_sig e)) (dec_str v)
  else if seqb k (B "created_at") then option_map (fun z => mkEvent (ev_id e) (ev_pubkey e) z (ev_kind e) (ev_tags e) (ev_content e) (ev_sig e)) (dec_int v)
  else if seqb k (B "kind") then option_map (fun z => mkEvent (ev_id e) (ev_pubkey e) (ev_created_at e) z (ev_tags e) (ev_content e) (ev_sig e)) (dec_int v)
  else if seqb k (B "tags") then option_map (fun ts => mkEvent (ev_id e) (ev_pubkey e) (ev_created_at e) (ev_kind e) ts (ev_content e) (ev_sig e)) (dec_arr dec_tag v)
  else if seqb k (B "content") then option_map (fun s => mkEvent (ev_id e) (ev_pubkey e) (ev_created_at e) (ev_kind e) (ev_tags e) s (ev_sig e)) (dec_str v)
  else option_map (fun s => mkEvent (ev_id e) (ev_pubkey e) (ev_created_at e) (ev_kind e) (ev_tags e) (ev_content e) s) (dec_str v).
Ltac each_name H := cbn [event_names filter_names map In] in H; repeat match type of H with _ \/ _ => destruct H as [H|H] end; try contradiction.
Lemma event_decides n fuel k e : n <= fuel -> In k event_names -> decides n (fun l => event_field fuel k l e) (fun v => edec k v e).
Proof.
  intros NF HK. each_name HK; subst k.
  - exact (decides_map n lstring dec_str _ (decides_string n)).
  - exact (decides_map n lstring dec_str _ (decides_string n)).
  - exact (decides_map n lint dec_int _ (decides_int n)).
  - exact (decides_map n lint dec_int _ (decides_int n)).
  - exact (decides_map n _ (dec_arr dec_tag) _ (decides_array n fuel _ _ (decides_tag n fuel NF) NF)).
  - exact (decides_map n lstring dec_str _ (decides_string n)).
  - exact (decides_map n lstring dec_str _ (decides_string n)).
Qed.
Lemma dec_str_iff v s : dec_str v = Some s <-> v = JStr s.
Proof. destruct v; cbn; split; intro H; congruence. Qed.
Lemma dec_int_iff t v z : enc t v -> (dec_int v = Some z <-> v = JNum (dec_Z z) /\ int64 z).
Proof.
  intro HE. split.
  - destruct v; try discriminate. apply enc_number in HE as (x & -> & ->). cbn [dec_int]. intro H.
    destruct (Z_le_dec min_int64 x) as [L|L]; [destruct (Z_le_dec x max_int64) as [L'|L']|].
    + rewrite parse_int_dec_Z in H by lia. assert (x = z) by congruence. subst x. split; [reflexivity|split; assumption].
    + rewrite parse_int_out in H by lia. discriminate.
    + rewrite parse_int_out in H by lia. discriminate.
  - intros [-> HZ]. apply parse_int_dec_Z, HZ.
Qed.
Lemma dec_strs_iff l ss : dec_all dec_str l = Some ss <-> l = map JStr ss.
Proof.
  revert ss. induction l as [|v l IH]; intros ss; cbn [dec_all].
  - destruct ss; cbn; split; intro H; congruence.
  - split.
    + destruct (dec_str v) as [a|] eqn:D; [|discriminate]. destruct (dec_all dec_str l) as [r|]; [|discriminate]. intro H. injection H as <-. apply dec_str_iff in D. subst v. cbn [map]. f_equal. apply IH. reflexivity.
    + destruct ss as [|s ss]; [discriminate|]. cbn [map]. intro H. injection H as -> HL. cbn [dec_str]. apply IH in HL. rewrite HL. reflexivity.
Qed.
Lemma dec_tag_iff v t : dec_tag v = Some t <-> tag_of v t.
Proof.
  split.
  - destruct v; cbn [dec_tag dec_arr]; try discriminate; intro H; [injection H as <-; constructor|]. apply dec_strs_iff in H. subst l. constructor.
  - intros [l|]; [|reflexivity]. cbn [dec_tag dec_arr]. apply dec_strs_iff. reflexivity.
Qed.
Lemma dec_tags_iff l ts : dec_all dec_tag l = Some ts <-> Forall2 tag_of l ts.
Proof.
  revert ts. induction l as [|v l IH]; intros ts; cbn [dec_all].
  - split; [intro H; injection H as <-; constructor|intro H; inversion H; reflexivity].
  - split.
    + destruct (dec_tag v) as [a|] eqn:D; [|discriminate]. destruct (dec_all dec_tag l) as [r|]; [|discriminate]. intro H. injection H as <-. constructor; [apply dec_tag_iff, D|apply IH; reflexivity].
    + intro H. inversion H as [|x y l0 l1 H1 H2]; subst. apply dec_tag_iff in H1. rewrite H1. apply IH in H2. rewrite H2. reflexivity.
Qed.
Lemma dec_ints_iff ts l zs : Forall2 enc ts l -> (dec_all dec_int l = Some zs <-> l = map (fun z => JNum (dec_Z z)) zs /\ Forall int64 zs).
Proof.
  intro F. revert zs. induction F as [|t v ts l HE F IH]; intros zs; cbn [dec_all].
  - split; [intro H; injection H as <-; split; [reflexivity|constructor]|]. destruct zs; intros [H _]; [reflexivity|discriminate].
  - split.
    + destruct (dec_int v) as [a|] eqn:D; [|discriminate]. destruct (dec_all dec_int l) as [r|]; [|discriminate]. intro H. injection H as <-. apply (dec_int_iff t v a HE) in D as [-> D]. destruct (proj1 (IH r) eq_refl) as [-> FR]. split; [reflexivity|constructor; assumption].
    + destruct zs as [|z zs]; intros [H FZ]; [discriminate|]. cbn [map] in H. apply Forall_cons_iff in FZ as [Z1 Z2]. assert (Q : v = JNum (dec_Z z) /\ l = map (fun z => JNum (dec_Z z)) zs) by (split; congruence). destruct Q as [Q1 Q2].
      rewrite (proj2 (dec_int_iff t v z HE) (conj Q1 Z1)). rewrite (proj2 (IH zs) (conj Q2 Z2)). reflexivity.
Qed.
Lemma omap_some {A C} (g : A -> C) o c : option_map g o = Some c <-> exists a, o = Some a /\ c = g a.
Proof. destruct o as [a|]; cbn; split; [intro H; injection H as <-; eauto|intros (x & H & ->); congruence|discriminate|intros (x & H & _); discriminate]. Qed.
Lemma edec_iff t k v e e' : enc t v -> v <> JNull -> In k event_names -> (edec k v e = Some e' <-> reads_member k v e e').
Proof.
  intros HE NN HK. split.
  - each_name HK; subst k; intro H; unfold edec in H; cbn [seqb B list_ascii_of_string Ascii.eqb Bool.eqb andb] in H; apply omap_some in H as (a & H & ->).
    + apply dec_str_iff in H. subst v. constructor.
    + apply dec_str_iff in H. subst v. constructor.
    + apply (dec_int_iff t v a HE) in H as [-> H]. constructor. exact H.
    + apply (dec_int_iff t v a HE) in H as [-> H]. constructor. exact H.
    + destruct v; try discriminate. cbn [dec_arr] in H. apply dec_tags_iff in H. constructor. exact H.
    + apply dec_str_iff in H. subst v. constructor.
    + apply dec_str_iff in H. subst v. constructor.
  - intros H. destruct H; try congruence; unfold edec; cbn [seqb B list_ascii_of_string Ascii.eqb Bool.eqb andb]; apply omap_some; eexists; (split; [|reflexivity]); try reflexivity; try (apply parse_int_dec_Z; assumption). cbn [dec_arr]. apply dec_tags_iff, H.
Qed.

(** A compact object: its members written with commas between them, the names without escapes. *)
Definition written_event (m : mtext) : Prop :=
  m_raw m = m_key m /\ forallb plain_char (m_key m) = true /\ enc (m_val m) (m_json m) /\ (In (m_key m) event_names \/ m_json m = JNull).
Lemma fold_iff {A} (fdec : str -> json -> A -> option A) (step : str -> json -> A -> A -> Prop) ms :
  (forall k a b, step k JNull a b <-> b = a) ->
  Forall (fun m => m_json m <> JNull -> forall a b, fdec (m_key m) (m_json m) a = Some b <-> step (m_key m) (m_json m) a b) ms ->
  forall a c, fold_members fdec ms a = Some c <-> in_turn_members step ms a c.
Proof.
  intros HN F. induction F as [|m ms H F IH]; intros a c.
  - cbn [fold_members]. split; [intro Q; injection Q as <-; constructor|intro Q; inversion Q; reflexivity].
  - rewrite fold_cons. cbn [fold_members].
    assert (NV : m_json m = JNull \/ m_json m <> JNull) by (destruct (m_json m); [left; reflexivity|right; discriminate..]).
    destruct NV as [NV|NV].
    + rewrite NV, IH. split.
      * intro Q. econstructor; [|exact Q]. rewrite NV. apply HN. reflexivity.
      * intro Q. inversion Q as [|m0 ms0 a0 b c0 S1 S2]; subst. rewrite NV in S1. apply HN in S1. subst b. exact S2.
    + assert (FM : match m_json m with JNull => Some a | v => match fdec (m_key m) v a with Some a' => Some a' | None => None end end = fdec (m_key m) (m_json m) a)
        by (destruct (m_json m); [congruence| | | | |]; match goal with |- match ?x with _ => _ end = _ => destruct x; reflexivity end).
      rewrite FM. specialize (H NV a). split.
      * destruct (fdec (m_key m) (m_json m) a) as [b|]; [|discriminate]. intro Q. econstructor; [apply H; reflexivity|apply IH, Q].
      * intro Q. inversion Q as [|m0 ms0 a0 b c0 S1 S2]; subst. apply H in S1. rewrite S1. apply IH, S2.
Qed.
Lemma null_member k a b : reads_member k JNull a b <-> b = a.
Proof. split; [intro H; inversion H; reflexivity|intros ->; constructor]. Qed.

(** ** C17 *)
(** An object whose members are known ones (or null) is read exactly as the specification says: the last of several members with
    one name wins, null changes nothing, the members may come in any order and be written with any escapes. *)
Theorem C17_reads ms e0 e : Forall written_event ms -> (decode_event_into e0 (object_text (map m_text ms)) = Ok e <-> in_turn_members reads_member ms e0 e).
Proof.
  intro W. unfold decode_event_into. set (data := object_text (map m_text ms)).
  assert (MO : Forall (m_ok raw_field_name (event_field (S (length data))) edec) ms).
  { apply Forall_forall. intros m HM. rewrite Forall_forall in W. destruct (W m HM) as (W1 & W2 & W3 & W4). split; [|split; [exact W3|]].
    - rewrite W1. eapply reads_raw_name, enc_key, W2.
    - intros NN a. destruct W4 as [W4|W4]; [|congruence].
      apply (event_decides (S (length data)) (S (length data)) (m_key m) a (le_n _) W4 _ _ W3).
      pose proof (member_length (m_text m) (map m_text ms) (in_map m_text ms m HM)) as L. cbn [m_text snd] in L. fold data in L. lia. }
  pose proof (object_decides _ _ edec ms e0 MO) as OD. fold data in OD. rewrite OD.
  rewrite <- (fold_iff edec reads_member ms null_member).
  - destruct (fold_members edec ms e0) as [x|]; split; intro H; congruence.
  - apply Forall_forall. intros m HM NN a b. rewrite Forall_forall in W. destruct (W m HM) as (W1 & W2 & W3 & W4). destruct W4 as [W4|W4]; [|congruence]. apply (edec_iff (m_val m)); assumption.
Qed.
(** In all other cases the answer is an error, never a crash. *)
Theorem C17_refuses ms e0 : Forall written_event ms -> (forall e, ~ in_turn_members reads_member ms e0 e) -> decode_event_into e0 (object_text (map m_text ms)) = Err.
Proof.
  intros W N. destruct (decode_event_into e0 (object_text (map m_text ms))) as [e| |] eqn:D; [destruct (N e); apply C17_reads; assumption|reflexivity|].
  exfalso. unfold decode_event_into, decode_object in D. destruct (is_null _) as [[] l]; unfold finish in D; [|destruct (members _ _ _ _ _) as [x l']]; destruct (lx_err _); try discriminate; destruct (skip_ws _); discriminate.
Qed.
Lemma top_level {A} t v name (field : str -> lexer -> A -> A * lexer) a : enc t v -> (forall l, v <> JObj l) ->
  decode_object t name field a = match v with JNull => Ok a | _ => Err end /\ fst (is_null (lx_init t)) = match v with JNull => true | _ => false end.
Proof.
  intros HE NO. unfold decode_object, is_null, lx_init. cbv zeta.
  destruct (scan_enc t v [] None false [] HE ltac:(left; split; reflexivity) Logic.I) as (r' & f & k & S & T & R). cbn [app] in S. rewrite app_nil_r in S. rewrite S. cbn [lx_tok].
  assert (E : forall l fuel, lx_err l = true -> finish (members fuel name field l a) = Err) by (intros l fuel HL; apply finish_err, members_err, HL).
  destruct v; cbn [token_of] in T; try (destruct T as (raw & T)); subst k; try (split; [apply E; reflexivity|reflexivity]).
  - subst r'. split; reflexivity.
  - destruct (NO l eq_refl).
Qed.
(** A value that is not an object is refused; null leaves the event alone. *)
Theorem C17_not_an_object t v e0 : enc t v -> (forall l, v <> JObj l) -> decode_event_into e0 t = match v with JNull => Ok e0 | _ => Err end.
Proof. intros HE NO. apply (top_level t v _ _ e0 HE NO). Qed.

Example C17_reads_example :
  let s k t v := mkM (B k) (B k) t v in
  let ms := [s "tags"%string (B "[[""a"",""b""],null,[]]") (JArr [JArr [JStr (B "a"); JStr (B "b")]; JNull; JArr []]); s "id"%string (B """x""") (JStr (B "x")); s "id"%string (bslash :: B "") (JStr []);
             s "kind"%string (B "-7") (JNum (B "-7"))] in
  decode_event (object_text (map m_text [nth 0 ms (s ""%string [] JNull); s "id"%string (quote :: bslash :: B "u0041""") (JStr (B "A")); nth 1 ms (s ""%string [] JNull); s "foo"%string (B "null") JNull; nth 3 ms (s ""%string [] JNull)])) =
    Ok (mkEvent (B "x") [] 0 (-7) [[B "a"; B "b"]; []; []] [] []) /\
  decode_event (object_text (map m_text [s "kind"%string (B """1""") (JStr (B "1"))])) = Err /\
  decode_event (object_text (map m_text [s "tags"%string (B "[[""a"",1]]") (JArr [JArr [JStr (B "a"); JNum (B "1")]])])) = Err /\
  decode_event (object_text (map m_text [s "kind"%string (B "9223372036854775808") (JNum (B "9223372036854775808"))])) = Err.
Proof. cbv zeta. repeat split; vm_compute; reflexivity. Qed.
Example C17_written_example : Forall written_event [mkM (B "id") (B "id") (quote :: bslash :: B "u0041""") (JStr (B "A")); mkM (B "kind") (B "kind") (B "-7") (JNum (B "-7")); mkM (B "foo") (B "foo") (B "null") JNull].
Proof.
  assert (EA : enc (quote :: bslash :: B "u0041""") (JStr (B "A"))).
  { change (quote :: bslash :: B "u0041""") with (quote :: (bslash :: B "u0041") ++ [quote]). apply e_str. rewrite <- (app_nil_r (bslash :: B "u0041")). change (B "A") with (utf8 0x41 ++ []). constructor; [|constructor]. apply ec_u; reflexivity. }
  repeat apply Forall_cons; try apply Forall_nil; unfold written_event; cbn [m_raw m_key m_val m_json]; (split; [reflexivity|split; [reflexivity|split]]); try exact EA; try exact (e_int (-7)); try exact e_null; try (right; reflexivity); left; vm_compute; auto 10.
Qed.

(** ** C18 *)
Definition fdec (k : str) (v : json) (f : nfilter) : option nfilter :=
  if seqb k (B "ids") then option_map (fun l => mkFilter (Some l) (f_kinds f) (f_authors f) (f_tags f) (f_since f) (f_until f) (f_limit f) (f_search f) (f_limit_zero f)) (dec_arr dec_str v)
  else if seqb k (B "kinds") then option_map (fun l => mkFilter (f_ids f) (Some l) (f_authors f) (f_tags f) (f_since f) (f_until f) (f_limit f) (f_search f) (f_limit_zero f)) (dec_arr dec_int v)
  else if seqb k (B "authors") then option_map (fun l => mkFilter (f_ids f) (f_kinds f) (Some l) (f_tags f) (f_since f) (f_until f) (f_limit f) (f_search f) (f_limit_zero f)) (dec_arr dec_str v)
  else if seqb k (B "since") then option_map (fun z => mkFilter (f_ids f) (f_kinds f) (f_authors f) (f_tags f) (Some z) (f_until f) (f_limit f) (f_search f) (f_limit_zero f)) (dec_int v)
  else if seqb k (B "until") then option_map (fun z => mkFilter (f_ids f) (f_kinds f) (f_authors f) (f_tags f) (f_since f) (Some z) (f_limit f) (f_search f) (f_limit_zero f)) (dec_int v)
  else if seqb k (B "limit") then option_map (fun z => mkFilter (f_ids f) (f_kinds f) (f_authors f) (f_tags f) (f_since f) (f_until f) z (f_search f) (Z.eqb z 0 || f_limit_zero f)) (dec_int v)
  else if seqb k (B "search") then option_map (fun s => mkFilter (f_ids f) (f_kinds f) (f_authors f) (f_tags f) (f_since f) (f_until f) (f_limit f) s (f_limit_zero f)) (dec_str v)
  else match k with
       | c :: (_ :: _) as n => if ceqb c "#"%char then option_map (fun l => mkFilter (f_ids f) (f_kinds f) (f_authors f) (map_set n (Some l) (f_tags f)) (f_since f) (f_until f) (f_limit f) (f_search f) (f_limit_zero f)) (dec_arr dec_str v) else Some f
       | _ => Some f
       end.
Lemma key_cases k : In k filter_names \/ (~ In k filter_names /\ exists n, tag_name k n) \/ (~ In k filter_names /\ forall n, ~ tag_name k n).
Proof.
  destruct (in_dec (list_eq_dec Ascii.ascii_dec) k filter_names) as [I|N]; [auto|right].
  destruct k as [|c [|d k]].
  - right. split; [exact N|]. intros n [_ Q]. discriminate.
  - right. split; [exact N|]. intros n [Q1 Q2]. assert (n = []) by congruence. contradiction.
  - destruct (Ascii.ascii_dec c "#"%char) as [->|NC]; [left; split; [exact N|]; exists (d :: k); split; [discriminate|reflexivity]|]. right. split; [exact N|]. intros n [_ Q]. congruence.
Qed.
Lemma not_name k s : ~ In k filter_names -> In s filter_names -> seqb k s = false.
Proof. intros N I. destruct (seqb k s) eqn:E; [|reflexivity]. apply seqb_eq in E. subst. contradiction. Qed.
Ltac no_names N := rewrite (not_name _ (B "ids") N), (not_name _ (B "kinds") N), (not_name _ (B "authors") N), (not_name _ (B "since") N), (not_name _ (B "until") N), (not_name _ (B "limit") N), (not_name _ (B "search") N) by (vm_compute; auto 10).
Lemma filter_decides n fuel k f t v : n <= fuel -> enc t v -> length t < n ->
  match fdec k v f with Some g => reads0 (fun l => filter_field fuel k l f) t g | None => fails (fun l => filter_field fuel k l f) t end.
Proof.
  intros NF HE HL.
  destruct (key_cases k) as [HK|[[N (m & T1 & ->)]|[N NT]]].
  - revert t v HE HL. change (decides n (fun l => filter_field fuel k l f) (fun v => fdec k v f)). each_name HK; subst k.
    + exact (decides_map n _ (dec_arr dec_str) _ (decides_array n fuel _ _ (decides_string n) NF)).
    + exact (decides_map n _ (dec_arr dec_int) _ (decides_array n fuel _ _ (decides_int n) NF)).
    + exact (decides_map n _ (dec_arr dec_str) _ (decides_array n fuel _ _ (decides_string n) NF)).
    + exact (decides_map n lint dec_int _ (decides_int n)).
    + exact (decides_map n lint dec_int _ (decides_int n)).
    + exact (decides_map n lint dec_int _ (decides_int n)).
    + exact (decides_map n lstring dec_str _ (decides_string n)).
  - destruct m as [|d m]; [contradiction|]. unfold fdec, filter_field. no_names N. change (ceqb "#" "#") with true. cbv iota.
    exact (decides_map n _ (dec_arr dec_str) _ (decides_array n fuel _ _ (decides_string n) NF) t v HE HL).
  - unfold fdec, filter_field. no_names N. destruct k as [|c [|d k]]; [exact (skip_recursive_reads f t v HE)|exact (skip_recursive_reads f t v HE)|].
    destruct (ceqb c "#") eqn:C; [|exact (skip_recursive_reads f t v HE)]. exfalso. apply Ascii.eqb_eq in C. subst c. apply (NT (d :: k)). split; [discriminate|reflexivity].
Qed.
Lemma fdec_iff t k v f g : enc t v -> v <> JNull -> (fdec k v f = Some g <-> reads_fmember k v f g).
Proof.
  intros HE NN.
  assert (STR : forall h : list str -> nfilter, option_map h (dec_arr dec_str v) = Some g <-> exists l, v = JArr (map JStr l) /\ g = h l).
  { intro h. rewrite omap_some. split; intros (l & H & ->); exists l; (split; [|reflexivity]).
    - destruct v; try discriminate. cbn [dec_arr] in H. apply dec_strs_iff in H. subst. reflexivity.
    - subst v. cbn [dec_arr]. apply dec_strs_iff. reflexivity. }
  assert (INT : forall h : Z -> nfilter, option_map h (dec_int v) = Some g <-> exists z, v = JNum (dec_Z z) /\ int64 z /\ g = h z).
  { intro h. rewrite omap_some. split; [intros (z & H & ->); apply (dec_int_iff t v z HE) in H as [H1 H2]; exists z; auto|intros (z & H1 & H2 & ->); exists z; split; [apply (dec_int_iff t v z HE); auto|reflexivity]]. }
  destruct (key_cases k) as [HK|[[N (m & T1 & ->)]|[N NT]]].
  - each_name HK; subst k; unfold fdec; cbn [seqb B list_ascii_of_string Ascii.eqb Bool.eqb andb].
    + rewrite STR. split; [intros (l & -> & ->); constructor|]. intro H. inversion H; subst; try congruence; try (match goal with Q : tag_name _ _ |- _ => destruct Q; discriminate end); try (match goal with Q : ~ In _ filter_names |- _ => destruct Q; vm_compute; auto 10 end). eauto.
    + rewrite omap_some. split.
      * intros (l & H & ->). destruct v; try discriminate. cbn [dec_arr] in H. destruct (enc_arr_texts t l0 HE) as (ts & F & _). apply (dec_ints_iff ts l0 l F) in H as [-> H]. constructor. exact H.
      * intro H. inversion H; subst; try congruence; try (match goal with Q : tag_name _ _ |- _ => destruct Q; discriminate end); try (match goal with Q : ~ In _ filter_names |- _ => destruct Q; vm_compute; auto 10 end).
        eexists. split; [|reflexivity]. cbn [dec_arr]. destruct (enc_arr_texts t _ HE) as (ts & F & _). apply (dec_ints_iff ts _ _ F). split; [reflexivity|assumption].
    + rewrite STR. split; [intros (l & -> & ->); constructor|]. intro H. inversion H; subst; try congruence; try (match goal with Q : tag_name _ _ |- _ => destruct Q; discriminate end); try (match goal with Q : ~ In _ filter_names |- _ => destruct Q; vm_compute; auto 10 end). eauto.
    + rewrite INT. split; [intros (z & -> & HZ & ->); constructor; exact HZ|]. intro H. inversion H; subst; try congruence; try (match goal with Q : tag_name _ _ |- _ => destruct Q; discriminate end); try (match goal with Q : ~ In _ filter_names |- _ => destruct Q; vm_compute; auto 10 end). eauto.
    + rewrite INT. split; [intros (z & -> & HZ & ->); constructor; exact HZ|]. intro H. inversion H; subst; try congruence; try (match goal with Q : tag_name _ _ |- _ => destruct Q; discriminate end); try (match goal with Q : ~ In _ filter_names |- _ => destruct Q; vm_compute; auto 10 end). eauto.
    + rewrite INT. split.
      * intros (z & -> & HZ & ->). constructor; [exact HZ|]. rewrite orb_true_iff, Z.eqb_eq. reflexivity.
      * intro H. inversion H; subst; try congruence; try (match goal with Q : tag_name _ _ |- _ => destruct Q; discriminate end); try (match goal with Q : ~ In _ filter_names |- _ => destruct Q; vm_compute; auto 10 end).
        exists z. split; [reflexivity|]. split; [assumption|]. f_equal. apply eq_true_iff_eq. rewrite orb_true_iff, Z.eqb_eq. assumption.
    + rewrite omap_some. split; [intros (s & H & ->); apply dec_str_iff in H; subst v; constructor|]. intro H. inversion H; subst; try congruence; try (match goal with Q : tag_name _ _ |- _ => destruct Q; discriminate end); try (match goal with Q : ~ In _ filter_names |- _ => destruct Q; vm_compute; auto 10 end). eexists. split; reflexivity.
  - destruct m as [|d m]; [contradiction|]. unfold fdec. no_names N. change (ceqb "#" "#") with true. cbv iota. rewrite STR. split.
    + intros (l & -> & ->). apply rf_tag. split; [discriminate|reflexivity].
    + intro H. inversion H as [| | | | | | | |k n l f0 TN|k v0 f0 NI NTN]; subst; try congruence; try (match goal with Q : _ = "#"%char :: _ |- _ => discriminate Q end).
      * destruct TN as [_ TN]. assert (n = d :: m) by congruence. subst n. eauto.
      * exfalso. apply (NTN (d :: m)). split; [discriminate|reflexivity].
  - unfold fdec. no_names N. assert (E : match k with c :: (_ :: _) as n => if ceqb c "#"%char then option_map (fun l => mkFilter (f_ids f) (f_kinds f) (f_authors f) (map_set n (Some l) (f_tags f)) (f_since f) (f_until f) (f_limit f) (f_search f) (f_limit_zero f)) (dec_arr dec_str v) else Some f | _ => Some f end = Some f).
    { destruct k as [|c [|d k]]; try reflexivity. destruct (ceqb c "#") eqn:C; [|reflexivity]. exfalso. apply Ascii.eqb_eq in C. subst c. apply (NT (d :: k)). split; [discriminate|reflexivity]. }
    rewrite E. split; [intro H; injection H as <-; apply rf_unknown; assumption|]. intro H. inversion H; subst; try congruence; try (exfalso; apply N; vm_compute; auto 10; fail). exfalso. eapply NT. eassumption.
Qed.
Lemma null_fmember k a b : reads_fmember k JNull a b <-> b = a.
Proof. split; [intro H; inversion H; reflexivity|intros ->; constructor]. Qed.
Definition written_filter (m : mtext) : Prop := enc_chars (m_raw m) (m_key m) /\ enc (m_val m) (m_json m).
(** The tags are a fresh map (filter_easyjson.go:25). *)
Definition fresh_tags (f : nfilter) : nfilter := mkFilter (f_ids f) (f_kinds f) (f_authors f) [] (f_since f) (f_until f) (f_limit f) (f_search f) (f_limit_zero f).
(** A filter is read from any compact object, whatever its members are called: known ones are read, unknown ones are skipped. *)
Theorem C18_reads ms f0 f : Forall written_filter ms -> (decode_filter_into f0 (object_text (map m_text ms)) = Ok f <-> in_turn_members reads_fmember ms (fresh_tags f0) f).
Proof.
  intro W. unfold decode_filter_into. set (data := object_text (map m_text ms)).
  assert (MO : Forall (m_ok lstring (filter_field (S (length data))) fdec) ms).
  { apply Forall_forall. intros m HM. rewrite Forall_forall in W. destruct (W m HM) as (W1 & W3). split; [|split; [exact W3|]].
    - apply reads_string, W1.
    - intros NN a. apply (filter_decides (S (length data)) (S (length data)) (m_key m) a _ _ (le_n _) W3).
      pose proof (member_length (m_text m) (map m_text ms) (in_map m_text ms m HM)) as L. cbn [m_text snd] in L. fold data in L. lia. }
  pose proof (object_decides _ _ fdec ms (fresh_tags f0) MO) as OD. fold data in OD.
  change (let '(n, _) := is_null (lx_init data) in decode_object data lstring (filter_field (S (length data))) (if n then f0 else no_tags f0)) with (decode_object data lstring (filter_field (S (length data))) (fresh_tags f0)). rewrite OD.
  rewrite <- (fold_iff fdec reads_fmember ms null_fmember).
  - destruct (fold_members fdec ms (fresh_tags f0)) as [x|]; split; intro H; congruence.
  - apply Forall_forall. intros m HM NN a b. rewrite Forall_forall in W. destruct (W m HM) as (W1 & W3). apply (fdec_iff (m_val m)); assumption.
Qed.
Theorem C18_refuses ms f0 : Forall written_filter ms -> (forall f, ~ in_turn_members reads_fmember ms (fresh_tags f0) f) -> decode_filter_into f0 (object_text (map m_text ms)) = Err.
Proof.
  intros W N. destruct (decode_filter_into f0 (object_text (map m_text ms))) as [e| |] eqn:D; [destruct (N e); apply C18_reads; assumption|reflexivity|].
  exfalso. unfold decode_filter_into, decode_object in D. destruct (is_null _) as [[] l]; unfold finish in D; [|destruct (members _ _ _ _ _) as [x l']]; destruct (lx_err _); try discriminate; destruct (skip_ws _); discriminate.
Qed.
(** The tag map: a name has what was put there last. *)
Theorem C18_tag_map n k v (m : list (str * option (list str))) : assoc n (map_set k v m) = if seqb n k then Some v else assoc n m.
Proof.
  induction m as [|[k' v'] m IH]; cbn [map_set assoc].
  - destruct (seqb n k) eqn:E; cbn [assoc]; rewrite ?E; reflexivity.
  - destruct (seqb k k') eqn:E; cbn [assoc].
    + apply seqb_eq in E. subst k'. destruct (seqb n k); reflexivity.
    + rewrite IH. destruct (seqb n k') eqn:E2; [|reflexivity]. apply seqb_eq in E2. subst k'. destruct (seqb n k) eqn:E3; [|reflexivity]. apply seqb_eq in E3. subst k. rewrite seqb_refl in E. discriminate.
Qed.
Theorem C18_not_an_object t v f0 : enc t v -> (forall l, v <> JObj l) -> decode_filter_into f0 t = match v with JNull => Ok f0 | _ => Err end.
Proof.
  intros HE NO. unfold decode_filter_into. destruct (top_level t v lstring (filter_field (S (length t))) f0 HE NO) as [E1 E2]. destruct (top_level t v lstring (filter_field (S (length t))) (no_tags f0) HE NO) as [E3 _].
  destruct (is_null (lx_init t)) as [[] l]; cbn [fst] in E2; destruct v; try discriminate; assumption.
Qed.
Example C18_reads_example :
  decode_filter (B "{""since"":5,""other"":{""a"":[1,{""]"":""}""}]},""#e"":[""x""],""limit"":0,""#e"":[""y"",""z""],""ids"":null,""#"":3}") =
    Ok (mkFilter None None None [(B "e", Some [B "y"; B "z"])] (Some 5%Z) None 0 [] true) /\
  decode_filter (B "{""kinds"":[1,""2""]}") = Err /\ decode_filter (B "{""#e"":""x""}") = Err.
Proof. repeat split; vm_compute; reflexivity. Qed.

(** ** Numbers that are not whole *)
(** Digits with an optional sign, fraction and exponent: every JSON number, and those with leading zeros. *)
Definition digits1 (s : str) : Prop := s <> [] /\ forallb is_digit s = true.
Definition number_text (t : str) : Prop :=
  exists sg ds fr ex, t = sg ++ ds ++ fr ++ ex /\ (sg = [] \/ sg = B "-") /\ digits1 ds /\
    (fr = [] \/ exists fs, digits1 fs /\ fr = "."%char :: fs) /\
    (ex = [] \/ exists e sg' es, (e = "e"%char \/ e = "E"%char) /\ (sg' = [] \/ sg' = B "+" \/ sg' = B "-") /\ digits1 es /\ ex = e :: sg' ++ es).
Lemma raw_digit c s dot e a : is_digit c = true -> raw_number (c :: s) dot e a = match raw_number s dot e false with Some (x, y) => Some (c :: x, y) | None => None end.
Proof. intro H. cbn [raw_number]. rewrite H. reflexivity. Qed.
Lemma raw_digits ds s dot e a : digits1 ds -> raw_number (ds ++ s) dot e a = match raw_number s dot e false with Some (x, y) => Some (ds ++ x, y) | None => None end.
Proof.
  intros [N D]. destruct ds as [|c ds]; [contradiction|clear N]. revert c a D. induction ds as [|d ds IH]; intros c a D; cbn [forallb] in D; apply andb_true_iff in D as [D1 D2].
  - cbn [app]. apply raw_digit, D1.
  - change ((c :: d :: ds) ++ s) with (c :: (d :: ds) ++ s). rewrite raw_digit by exact D1. rewrite (IH d false D2). destruct (raw_number s dot e false) as [[x y]|]; reflexivity.
Qed.
Lemma raw_exp ex r dot : (ex = [] \/ exists e sg' es, (e = "e"%char \/ e = "E"%char) /\ (sg' = [] \/ sg' = B "+" \/ sg' = B "-") /\ digits1 es /\ ex = e :: sg' ++ es) -> end_ok r ->
  raw_number (ex ++ r) dot false false = Some (ex, r).
Proof.
  intros [->|(e & sg & es & HE & HS & HD & ->)] HR; [apply raw_number_end, HR|].
  assert (G : forall a, raw_number (es ++ r) true true a = Some (es, r)) by (intro a; rewrite raw_digits, raw_number_end by assumption; rewrite app_nil_r; reflexivity).
  destruct HE as [-> | ->]; destruct HS as [->|[->| ->]]; cbn [app B list_ascii_of_string raw_number]; cbn -[raw_number]; cbn [raw_number]; cbn -[raw_number]; rewrite G; reflexivity.
Qed.
Lemma raw_frac fr ex r : (fr = [] \/ exists fs, digits1 fs /\ fr = "."%char :: fs) ->
  (ex = [] \/ exists e sg' es, (e = "e"%char \/ e = "E"%char) /\ (sg' = [] \/ sg' = B "+" \/ sg' = B "-") /\ digits1 es /\ ex = e :: sg' ++ es) -> end_ok r ->
  raw_number (fr ++ ex ++ r) false false false = Some (fr ++ ex, r).
Proof.
  intros [->|(fs & HD & ->)] HX HR; [exact (raw_exp ex r false HX HR)|].
  cbn [app raw_number]. cbn -[raw_number]. rewrite raw_digits, raw_exp by assumption. reflexivity.
Qed.
Lemma fetch_num t r first : number_text t -> end_ok r -> fetch (t ++ r) None first = mkLx r None first (TNum t) false.
Proof.
  intros (sg & ds & fr & ex & -> & HS & HD & HF & HX) HR. destruct HS as [-> | ->].
  - destruct HD as [N D]. destruct ds as [|c ds]; [contradiction|]. cbn [app forallb] in *. apply andb_true_iff in D as [D1 D2]. cbn [fetch].
    assert (DC : is_digit c || ceqb c "-"%char = true) by (rewrite D1; reflexivity).
    destruct (digit_fetch c DC) as (-> & -> & -> & -> & -> & -> & -> & ->). cbn [orb]. rewrite DC. rewrite <- !app_assoc.
    assert (E : raw_number (ds ++ fr ++ ex ++ r) false false false = Some (ds ++ fr ++ ex, r)).
    { destruct ds as [|d ds]; [exact (raw_frac fr ex r HF HX HR)|]. rewrite raw_digits by (split; [discriminate|exact D2]). rewrite raw_frac by assumption. reflexivity. }
    rewrite E. reflexivity.
  - cbn [B list_ascii_of_string app fetch]. cbn -[raw_number]. rewrite <- !app_assoc. rewrite raw_digits, raw_frac by assumption. reflexivity.
Qed.
Definition one_member (k t : str) : str := "{"%char :: quote :: k ++ quote :: ":"%char :: t ++ B "}".
Lemma one_number {A} name (field : str -> lexer -> A -> A * lexer) tk k t a : number_text t -> reads name (quote :: tk ++ [quote]) k ->
  decode_object (one_member tk t) name field a =
  finish (let '(a', l) := field k (mkLx (B "}") None false (TNum t) false) a in members (S (length (one_member tk t)) - 1) name field (want ","%char l) a').
Proof.
  intros HN Hn. unfold decode_object, lx_init, is_null. set (n := length (one_member tk t)). rewrite scan_undef. unfold one_member.
  set (body := quote :: tk ++ quote :: ":"%char :: t ++ B "}").
  change (fetch ("{"%char :: body) None false) with (mkLx body None true (TDelim "{"%char) false). cbn [lx_tok].
  change (delim "{"%char (mkLx body None true (TDelim "{"%char) false)) with (mkLx body None true TUndef false). unfold body.
  replace (quote :: tk ++ quote :: ":"%char :: t ++ B "}") with ([] ++ (quote :: tk ++ [quote]) ++ ":"%char :: t ++ B "}") by (cbn [app]; rewrite app_cons_assoc; reflexivity).
  destruct (Hn [] None true (":"%char :: t ++ B "}") (or_introl (conj eq_refl eq_refl)) eq_refl) as ((b & E) & E2 & H3 & H4 & H5 & H6).
  cbn [members]. unfold is_delim. cbv zeta. rewrite H3, H6. cbn [orb]. rewrite E2, E.
  change (want ":"%char (mkLx (":"%char :: t ++ B "}") None b TUndef false)) with (mkLx (":"%char :: t ++ B "}") (Some ":"%char) false TUndef false).
  unfold is_null. rewrite scan_undef. change (fetch (":"%char :: t ++ B "}") (Some ":"%char) false) with (fetch (t ++ B "}") None false). rewrite fetch_num by (assumption || reflexivity).
  cbn [lx_tok]. replace (S n - 1) with n by lia. reflexivity.
Qed.
(** A member with an unknown name may be any number. *)
Theorem C18_skips_numbers f0 tk k t : number_text t -> enc_chars tk k -> ~ In k filter_names -> (forall n, ~ tag_name k n) ->
  decode_filter_into f0 (one_member tk t) = Ok (fresh_tags f0).
Proof.
  intros HN HK N NT. unfold decode_filter_into.
  change (let '(n, _) := is_null (lx_init (one_member tk t)) in decode_object (one_member tk t) lstring (filter_field (S (length (one_member tk t)))) (if n then f0 else no_tags f0))
    with (decode_object (one_member tk t) lstring (filter_field (S (length (one_member tk t)))) (fresh_tags f0)).
  rewrite (one_number _ _ _ k) by (try assumption; apply reads_string, HK). unfold filter_field. no_names N.
  replace (match k with c :: (_ :: _) as n => _ | _ => _ end) with (fresh_tags f0, skip_recursive (mkLx (B "}") None false (TNum t) false)); [reflexivity|].
  destruct k as [|c [|d k]]; try reflexivity. destruct (ceqb c "#") eqn:C; [|reflexivity]. exfalso. apply Ascii.eqb_eq in C. subst c. apply (NT (d :: k)). split; [discriminate|reflexivity].
Qed.
(** A number with a fraction or an exponent is refused where a whole number is wanted. *)
Definition not_whole (t : str) : Prop := number_text t /\ exists c, In c t /\ (c = "."%char \/ c = "e"%char \/ c = "E"%char).
Lemma int_unfold s : parse_int s = match s with
  | c :: r => if ceqb c "-"%char then match parse_digits r with None => None | Some n => if ((min_int64 <=? - Z.of_N n) && (- Z.of_N n <=? max_int64))%Z then Some (- Z.of_N n)%Z else None end
              else match parse_digits (if ceqb c "+"%char then r else s) with None => None | Some n => if ((min_int64 <=? Z.of_N n) && (Z.of_N n <=? max_int64))%Z then Some (Z.of_N n) else None end
  | [] => None end.
Proof. destruct s as [|[[] [] [] [] [] [] [] []] r]; reflexivity. Qed.
Lemma not_whole_int t : not_whole t -> parse_int t = None.
Proof.
  intros [_ (c & HI & HC)]. assert (D : is_digit c = false /\ c <> "-"%char /\ c <> "+"%char) by (destruct HC as [->|[->| ->]]; (split; [reflexivity|split; discriminate])).
  destruct D as (D & D1 & D2).
  assert (P : forall u, In c u -> parse_digits u = None).
  { intros u HU. unfold parse_digits. destruct u as [|x u]; [contradiction|]. destruct (forallb is_digit (x :: u)) eqn:F; [|reflexivity]. rewrite forallb_forall in F. rewrite (F c HU) in D. discriminate. }
  rewrite int_unfold. destruct t as [|x t]; [contradiction|].
  destruct (ceqb x "-") eqn:E1; [apply Ascii.eqb_eq in E1; subst x; destruct HI as [HI|HI]; [congruence|]; rewrite (P t HI); reflexivity|].
  destruct (ceqb x "+") eqn:E2; [apply Ascii.eqb_eq in E2; subst x; destruct HI as [HI|HI]; [congruence|]; rewrite (P t HI); reflexivity|].
  rewrite (P _ HI). reflexivity.
Qed.
Lemma number_members {A} name (field : str -> lexer -> A -> A * lexer) tk k t a : number_text t -> reads name (quote :: tk ++ [quote]) k ->
  lx_err (snd (field k (mkLx (B "}") None false (TNum t) false) a)) = true -> decode_object (one_member tk t) name field a = Err.
Proof.
  intros HN Hn HE. rewrite (one_number name field tk k) by assumption. destruct (field k _ a) as [a' l]. cbn [snd] in HE. apply finish_err, members_err. exact HE.
Qed.
Theorem C17_whole_numbers e0 t : not_whole t -> decode_event_into e0 (one_member (B "kind") t) = Err /\ decode_event_into e0 (one_member (B "created_at") t) = Err.
Proof.
  intro NW. pose proof (not_whole_int t NW) as PI. unfold decode_event_into.
  split; (eapply number_members; [apply NW|eapply (reads_raw_name _ _); apply enc_key; reflexivity|]); cbn; rewrite PI; reflexivity.
Qed.
Theorem C18_whole_numbers f0 t k : not_whole t -> In k (map B ["since"; "until"; "limit"]%string) -> decode_filter_into f0 (one_member k t) = Err.
Proof.
  intros NW HK. pose proof (not_whole_int t NW) as PI. unfold decode_filter_into.
  change (let '(n, _) := is_null (lx_init (one_member k t)) in decode_object (one_member k t) lstring (filter_field (S (length (one_member k t)))) (if n then f0 else no_tags f0))
    with (decode_object (one_member k t) lstring (filter_field (S (length (one_member k t)))) (fresh_tags f0)).
  vm_compute in HK. destruct HK as [<-|[<-|[<-|[]]]]; (eapply number_members; [apply NW|apply reads_string; apply enc_key; reflexivity|]); cbn; rewrite PI; reflexivity.
Qed.
Example C18_numbers_example : number_text (B "-0.25E+7") /\ not_whole (B "1e3") /\ decode_filter (B "{""x"":-0.25E+7}") = Ok zero_filter /\ decode_event (B "{""kind"":1e3}") = Err /\ decode_event (B "{""kind"":7}") = Ok (mkEvent [] [] 0 7 [] [] []).
Proof.
  split; [exists (B "-"), (B "0"), (B ".25"), (B "E+7"); split; [reflexivity|]; split; [auto|]; split; [split; [discriminate|reflexivity]|]; split; right; [exists (B "25"); repeat split; discriminate|exists "E"%char, (B "+"), (B "7"); repeat split; auto; discriminate]|].
  split; [split; [|exists "e"%char; split; [cbn; auto|auto]]; exists [], (B "1"), [], (B "e3"); split; [reflexivity|]; split; [auto|]; split; [split; [discriminate|reflexivity]|]; split; [auto|right; exists "e"%char, [], (B "3"); repeat split; auto; discriminate]|].
  repeat split; vm_compute; reflexivity.
Qed.

Print Assumptions C17_reads.
Print Assumptions C17_refuses.
Print Assumptions C17_not_an_object.
Print Assumptions C18_reads.
Print Assumptions C18_refuses.
Print Assumptions C18_tag_map.
Print Assumptions C18_not_an_object.

Print Assumptions C18_skips_numbers.
Print Assumptions C17_whole_numbers.
Print Assumptions C18_whole_numbers.
