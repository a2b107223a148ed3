(** C17 for events with any bytes at all: what the JSON writer and reader make of text that is not UTF-8
    (/repo/event_easyjson.go:34-156). *)
From Verif Require Import Base JsonSpec EventModel EventProofs TagsModel FilterModel FilterProofs JLexModel JLexProofs JsonEventProofs Props_Json.
Local Open Scope N_scope.

(** ** The specification: characters stay, and every byte where no character starts becomes U+FFFD *)
Inductive mended : str -> str -> Prop :=
| md_nil : mended [] []
| md_char cp s t : scalar cp -> mended s t -> mended (utf8 cp ++ s) (utf8 cp ++ t)
| md_bad c s t : (forall cp r, scalar cp -> c :: s <> utf8 cp ++ r) -> mended s t -> mended (c :: s) (utf8 0xFFFD ++ t).

(** ** Where a character starts *)
Definition starts (s : str) : bool :=
  match s with
  | [] => false
  | c :: r =>
    let n := val c in
    (n <? 0x80) ||
    (within 0xC2 0xDF c && match r with c1 :: _ => within 0x80 0xBF c1 | _ => false end) ||
    (within 0xE0 0xEF c && match r with c1 :: c2 :: _ => within (if n =? 0xE0 then 0xA0 else 0x80) (if n =? 0xED then 0x9F else 0xBF) c1 && within 0x80 0xBF c2 | _ => false end) ||
    (within 0xF0 0xF4 c && match r with c1 :: c2 :: c3 :: _ => within (if n =? 0xF0 then 0x90 else 0x80) (if n =? 0xF4 then 0x8F else 0xBF) c1 && within 0x80 0xBF c2 && within 0x80 0xBF c3 | _ => false end)
  end.
Lemma within_spec lo hi c : within lo hi c = true <-> lo <= val c <= hi.
Proof. unfold within. rewrite andb_true_iff, !N.leb_le. reflexivity. Qed.

Lemma scalar_starts cp r : scalar cp -> starts (utf8 cp ++ r) = true.
Proof.
  intro H. unfold utf8.
  destruct (N.ltb_spec cp 0x80) as [L1|L1].
  { cbn [app starts]. rewrite val_byte_of by lia. destruct (N.ltb_spec cp 0x80); [reflexivity|lia]. }
  destruct (N.ltb_spec cp 0x800) as [L2|L2].
  { set (a := 0xC0 + cp / 64). set (b := 0x80 + cp mod 64).
    assert (Ha : 0xC2 <= a <= 0xDF) by (unfold a; lia). assert (Hb : 0x80 <= b <= 0xBF) by (unfold b; lia).
    cbn [app starts]. rewrite val_byte_of by lia. 
    rewrite (within_true 0xC2 0xDF a), (within_true 0x80 0xBF b) by lia. cbn [andb]. rewrite ?orb_true_r. destruct (a <? 0x80); cbn [orb]; rewrite ?orb_true_r; reflexivity. }
  destruct (N.ltb_spec cp 0x10000) as [L3|L3].
  { set (a := 0xE0 + cp / 4096). set (b := 0x80 + (cp / 64) mod 64). set (d := 0x80 + cp mod 64).
    assert (Ha : 0xE0 <= a <= 0xEF) by (unfold a; lia). assert (Hb : 0x80 <= b <= 0xBF) by (unfold b; lia).
    assert (Hd : 0x80 <= d <= 0xBF) by (unfold d; lia).
    assert (Hb0 : a = 0xE0 -> 0xA0 <= b) by (unfold a, b; lia).
    assert (Hb1 : a = 0xED -> b <= 0x9F) by (unfold a, b, scalar in *; lia).
    cbn [app starts]. rewrite val_byte_of by lia.
    rewrite (within_true 0xE0 0xEF a) by lia.
    rewrite (within_true (if a =? 0xE0 then 0xA0 else 0x80) (if a =? 0xED then 0x9F else 0xBF) b), (within_true 0x80 0xBF d).
    2-7: destruct (N.eqb_spec a 0xE0), (N.eqb_spec a 0xED); lia.
    cbn [andb]. rewrite ?orb_true_r. destruct (a <? 0x80); cbn [orb]; rewrite ?orb_true_r; reflexivity. }
  { assert (L4 : cp < 0x110000) by (unfold scalar in H; lia).
    set (a := 0xF0 + cp / 262144). set (b := 0x80 + (cp / 4096) mod 64). set (d := 0x80 + (cp / 64) mod 64).
    set (g := 0x80 + cp mod 64).
    assert (Ha : 0xF0 <= a <= 0xF4) by (unfold a; lia). assert (Hb : 0x80 <= b <= 0xBF) by (unfold b; lia).
    assert (Hd : 0x80 <= d <= 0xBF) by (unfold d; lia). assert (Hg : 0x80 <= g <= 0xBF) by (unfold g; lia).
    assert (Hb0 : a = 0xF0 -> 0x90 <= b) by (unfold a, b; lia).
    assert (Hb1 : a = 0xF4 -> b <= 0x8F) by (unfold a, b; lia).
    cbn [app starts]. rewrite val_byte_of by lia.
    rewrite (within_true 0xF0 0xF4 a) by lia.
    rewrite (within_true (if a =? 0xF0 then 0x90 else 0x80) (if a =? 0xF4 then 0x8F else 0xBF) b), (within_true 0x80 0xBF d), (within_true 0x80 0xBF g) by
      (destruct (N.eqb_spec a 0xF0), (N.eqb_spec a 0xF4); lia).
    cbn [andb]. rewrite ?orb_true_r. destruct (a <? 0x80); cbn [orb]; rewrite ?orb_true_r; reflexivity. }
Qed.
Lemma byte_eq c n : n = val c -> byte_of n = c.
Proof. intros ->. apply byte_of_val. Qed.
Lemma starts_scalar c s : starts (c :: s) = true -> exists cp r, scalar cp /\ c :: s = utf8 cp ++ r.
Proof.
  unfold starts. cbv zeta. rewrite !orb_true_iff, !andb_true_iff, !within_spec. intros [[[H|H]|H]|H].
  - apply N.ltb_lt in H. exists (val c), s. split; [left; lia|]. unfold utf8. destruct (N.ltb_spec (val c) 0x80); [|lia]. rewrite byte_of_val. reflexivity.
  - destruct s as [|c1 s]; [destruct H; discriminate|]. rewrite within_spec in H. destruct H as [H1 H2].
    exists ((val c - 0xC0) * 64 + (val c1 - 0x80)), s. split; [left; lia|]. unfold utf8.
    destruct (N.ltb_spec ((val c - 0xC0) * 64 + (val c1 - 0x80)) 0x80); [lia|]. destruct (N.ltb_spec ((val c - 0xC0) * 64 + (val c1 - 0x80)) 0x800); [|lia].
    rewrite (byte_eq c), (byte_eq c1) by lia. reflexivity.
  - destruct s as [|c1 [|c2 s]]; try (destruct H; discriminate). rewrite andb_true_iff, !within_spec in H. destruct H as (H1 & H2 & H3).
    set (cp := (val c - 0xE0) * 4096 + (val c1 - 0x80) * 64 + (val c2 - 0x80)).
    assert (R : 0x800 <= cp < 0x10000 /\ (cp < 0xD800 \/ 0xE000 <= cp)) by (unfold cp; destruct (N.eqb_spec (val c) 0xE0), (N.eqb_spec (val c) 0xED); lia).
    assert (R1 : 0x80 <= val c1 <= 0xBF) by (destruct (N.eqb_spec (val c) 0xE0), (N.eqb_spec (val c) 0xED); lia).
    exists cp, s. split; [unfold scalar; lia|]. unfold utf8.
    destruct (N.ltb_spec cp 0x80); [lia|]. destruct (N.ltb_spec cp 0x800); [lia|]. destruct (N.ltb_spec cp 0x10000); [|lia].
    rewrite (byte_eq c), (byte_eq c1), (byte_eq c2) by (unfold cp; lia). reflexivity.
  - destruct s as [|c1 [|c2 [|c3 s]]]; try (destruct H; discriminate). rewrite !andb_true_iff, !within_spec in H. destruct H as (H1 & (H2 & H3) & H4).
    set (cp := (val c - 0xF0) * 262144 + (val c1 - 0x80) * 4096 + (val c2 - 0x80) * 64 + (val c3 - 0x80)).
    assert (R : 0x10000 <= cp < 0x110000) by (unfold cp; destruct (N.eqb_spec (val c) 0xF0), (N.eqb_spec (val c) 0xF4); lia).
    assert (R1 : 0x80 <= val c1 <= 0xBF) by (destruct (N.eqb_spec (val c) 0xF0), (N.eqb_spec (val c) 0xF4); lia).
    exists cp, s. split; [unfold scalar; lia|]. unfold utf8.
    destruct (N.ltb_spec cp 0x80); [lia|]. destruct (N.ltb_spec cp 0x800); [lia|]. destruct (N.ltb_spec cp 0x10000); [lia|].
    rewrite (byte_eq c), (byte_eq c1), (byte_eq c2), (byte_eq c3) by (unfold cp; lia). reflexivity.
Qed.
Lemma not_starts c s : starts (c :: s) = false -> jw_chars (c :: s) = jw_bad ++ jw_chars s.
Proof.
  unfold starts. cbv zeta. rewrite !orb_false_iff. intros [[[H0 H1] H2] H3]. cbn [jw_chars]. rewrite H0.
  destruct (within 0xC2 0xDF c); [destruct s as [|c1 s]; [reflexivity|cbn [andb] in H1; rewrite H1; reflexivity]|].
  destruct (within 0xE0 0xEF c); [destruct s as [|c1 [|c2 s]]; try reflexivity; cbn [andb] in H2; rewrite H2; reflexivity|].
  destruct (within 0xF0 0xF4 c); [destruct s as [|c1 [|c2 [|c3 s]]]; try reflexivity; cbn [andb] in H3; rewrite H3; reflexivity|]. reflexivity.
Qed.
Lemma jw_bad_enc : enc_chars jw_bad (utf8 0xFFFD).
Proof. rewrite <- (app_nil_r jw_bad), <- (app_nil_r (utf8 0xFFFD)). constructor; [|constructor]. apply ec_u; reflexivity. Qed.

Lemma utf8_length cp : (1 <= length (utf8 cp))%nat.
Proof. unfold utf8. destruct (cp <? 0x80), (cp <? 0x800), (cp <? 0x10000); cbn; lia. Qed.
Lemma mended_exists s : exists t, mended s t.
Proof.
  remember (length s) as n. revert s Heqn. induction n as [n IH] using lt_wf_ind. intros [|c s] E; [exists []; constructor|].
  destruct (starts (c :: s)) eqn:S.
  - destruct (starts_scalar c s S) as (cp & r & HS & HE). pose proof (utf8_length cp) as L. 
    destruct (IH (length r)) with (s := r) as (t & M); [|reflexivity|].
    { apply (f_equal (@length _)) in HE. rewrite app_length in HE. lia. }
    exists (utf8 cp ++ t). rewrite HE. constructor; assumption.
  - destruct (IH (length s)) with (s := s) as (t & M); [cbn in E; lia|reflexivity|]. exists (utf8 0xFFFD ++ t). constructor; [|exact M].
    intros cp r HS HE. rewrite HE, scalar_starts in S by exact HS. discriminate.
Qed.
Lemma mended_enc s t : mended s t -> enc_chars (jw_chars s) t.
Proof.
  induction 1 as [|cp s t HS M IH|c s t HB M IH]; [constructor| |].
  - destruct (jw_chars_scalar cp s HS) as (u & -> & E). apply enc_chars_app; assumption.
  - rewrite not_starts; [apply enc_chars_app; [exact jw_bad_enc|exact IH]|].
    destruct (starts (c :: s)) eqn:S; [|reflexivity]. destruct (starts_scalar c s S) as (cp & r & HS & HE). destruct (HB cp r HS HE).
Qed.
(** An encoded character is never the beginning of another one, so the reading is unique. *)
Lemma cons_inv {X} (x y : X) l m : x :: l = y :: m -> x = y /\ l = m. Proof. intro E. injection E. auto. Qed.
Lemma utf8_inj a b r r' : scalar a -> scalar b -> utf8 a ++ r = utf8 b ++ r' -> a = b /\ r = r'.
Proof.
  intros HA HB. unfold utf8.
  assert (V : forall x y, x < 256 -> y < 256 -> byte_of x = byte_of y -> x = y) by (intros x y X Y E; rewrite <- (val_byte_of x X), <- (val_byte_of y Y), E; reflexivity).
  assert (A1 : a < 0x110000) by (unfold scalar in HA; lia). assert (B1 : b < 0x110000) by (unfold scalar in HB; lia).
  destruct (N.ltb_spec a 0x80); [|destruct (N.ltb_spec a 0x800); [|destruct (N.ltb_spec a 0x10000)]];
    (destruct (N.ltb_spec b 0x80); [|destruct (N.ltb_spec b 0x800); [|destruct (N.ltb_spec b 0x10000)]]); cbn [app]; intro E;
    repeat match goal with Q : _ :: _ = _ :: _ |- _ => apply cons_inv in Q; destruct Q end;
    repeat match goal with Q : byte_of _ = byte_of _ |- _ => apply V in Q; [|lia|lia] end; try (exfalso; lia); (split; [clear HA HB; lia|assumption]).
Qed.
Lemma mended_fun s t t' : mended s t -> mended s t' -> t = t'.
Proof.
  intro M. revert t'. induction M as [|cp s t HS M IH|c s t HB M IH]; intros t' M'.
  - inversion M' as [|cp0 s0 t0 H H0 H1|]; [reflexivity|]. pose proof (utf8_length cp0). destruct (utf8 cp0); [cbn in *; lia|discriminate].
  - inversion M' as [H|cp0 s0 t0 H H0 H1|c0 s0 t0 H H0 H1].
    + pose proof (utf8_length cp). destruct (utf8 cp); [cbn in *; lia|discriminate].
    + apply utf8_inj in H1 as [-> ->]; [|assumption..]. f_equal. apply IH. assumption.
    + exfalso. eapply H; [exact HS|]. exact H1.
  - inversion M' as [|cp0 s0 t0 H H0 H1|c0 s0 t0 H H0 H1].
    + exfalso. eapply HB; [exact H|]. symmetry. exact H1.
    + f_equal. apply IH. assumption.
Qed.
Lemma mended_text s t : mended s t -> utf8_text t.
Proof.
  induction 1 as [|cp s t HS M (cps & F & ->)|c s t HB M (cps & F & ->)]; [exists []; split; [constructor|reflexivity]| |].
  - exists (cp :: cps). split; [constructor; assumption|reflexivity].
  - exists (0xFFFD :: cps). split; [constructor; [right; split; [discriminate|reflexivity]|exact F]|reflexivity].
Qed.
Lemma text_mended s : utf8_text s -> mended s s.
Proof. intros (cps & F & ->). induction F as [|cp cps H F IH]; cbn [flat_map]; constructor; assumption. Qed.
Lemma mended_nil t : mended [] t -> t = [].
Proof. intro M. exact (mended_fun [] t [] M md_nil). Qed.
Lemma mended_cons c s t : mended (c :: s) t -> t <> [].
Proof.
  intro M. inversion M as [|cp0 s0 t0 H H0 H1|c0 s0 t0 H H0 H1].
  - pose proof (utf8_length cp0). destruct (utf8 cp0); [cbn in *; lia|discriminate].
  - discriminate.
Qed.

Local Open Scope nat_scope.
(** ** Events *)
Definition mended_event (e e' : event) : Prop :=
  mended (ev_id e) (ev_id e') /\ mended (ev_pubkey e) (ev_pubkey e') /\ mended (ev_content e) (ev_content e') /\ mended (ev_sig e) (ev_sig e') /\
  Forall2 (Forall2 mended) (ev_tags e) (ev_tags e') /\ ev_created_at e' = ev_created_at e /\ ev_kind e' = ev_kind e.

Lemma m_reads_strings fuel l l' : Forall2 mended l l' -> length l < fuel -> reads (array fuel lstring) (jw_strings l) l'.
Proof.
  intros H Hf. unfold jw_strings. apply reads_array; [|rewrite map_length; exact Hf]. clear Hf.
  induction H as [|s t l l' H1 H2 IH]; constructor; [apply reads_string, mended_enc, H1|exact IH].
Qed.
Lemma m_reads_tag fuel l l' : Forall2 mended l l' -> length l < fuel -> reads (ltag fuel) (jw_strings l) l'.
Proof.
  intros H Hf pre sep first r Hs Hr. destruct (m_reads_strings fuel l l' H Hf pre sep first r Hs Hr) as (E & E2 & H3 & H4 & H5).
  cbv zeta in *.
  assert (S : scan (mkLx (pre ++ jw_strings l ++ r) sep first TUndef false) =
     mkLx (comma_sep (map jw_string l) ++ "]"%char :: r) None true (TDelim "["%char) false).
  { rewrite scan_undef, fetch_pre by exact Hs. unfold jw_strings, jw_array. cbn [app]. rewrite app_cons_assoc. reflexivity. }
  unfold ltag, is_null. rewrite S in *. cbn [scan lx_tok].
  rewrite E2. split; [exact E|]. split; [reflexivity|]. split; [reflexivity|]. split; [discriminate|]. split; reflexivity.
Qed.
Lemma m_reads_tags fuel ts ts' : Forall2 (Forall2 mended) ts ts' -> length ts < fuel -> (forall t, In t ts -> length t < fuel) ->
  reads (array fuel (ltag fuel)) (jw_array (map jw_strings ts)) ts'.
Proof.
  intros H Hf Ht. apply reads_array; [|rewrite map_length; exact Hf]. clear Hf.
  induction H as [|t t' ts ts' H1 H2 IH]; constructor.
  - apply m_reads_tag; [exact H1|]. apply Ht. left; reflexivity.
  - apply IH. intros u Hu. apply Ht. right; exact Hu.
Qed.

Section Fuel.
  Variable fuel : nat.
  Let ch := chain raw_field_name (event_field fuel).
  Lemma m_opt key (set : event -> str -> event) (get : event -> str) e s t : mended s t -> (s = [] -> get e = []) -> (get e = [] -> set e [] = e) ->
    (forall l, event_field fuel key l e = (let '(v, l') := lstring l in (set e v, l'))) -> forallb plain_char key = true ->
    ch e (opt_member key s) (set e t).
  Proof.
    intros M G0 GS EF PK. destruct s as [|c s]; [rewrite (mended_nil t M), (GS (G0 eq_refl)); constructor|].
    apply chain_one; [eapply reads_raw_name, enc_key; exact PK|].
    eapply reads_ext; [exact EF|]. apply (reads_map lstring _ t (set e)). apply reads_string, mended_enc, M.
  Qed.
  Lemma m_event_chain e0 e e' : leaves e0 e -> int64 (ev_created_at e) -> int64 (ev_kind e) -> mended_event e e' ->
    length (ev_tags e) < fuel -> (forall t, In t (ev_tags e) -> length t < fuel) -> ch e0 (event_members e) e'.
  Proof.
    intros (L1 & L2 & L3) H6 H7 (M1 & M2 & M3 & M4 & M5 & M6 & M7) Hf Ht. unfold event_members.
    eapply chain_app; [apply ch_kind, H7|]. cbn.
    eapply chain_app; [eapply (m_opt (B "id") (fun x s => mkEvent s (ev_pubkey x) (ev_created_at x) (ev_kind x) (ev_tags x) (ev_content x) (ev_sig x)) ev_id);
      [exact M1|exact L1|intro Q; destruct e0; cbn in *; subst; reflexivity|reflexivity|reflexivity]|]. cbn [ev_id ev_pubkey ev_created_at ev_kind ev_tags ev_content ev_sig].
    eapply chain_app; [eapply (m_opt (B "pubkey") (fun x s => mkEvent (ev_id x) s (ev_created_at x) (ev_kind x) (ev_tags x) (ev_content x) (ev_sig x)) ev_pubkey);
      [exact M2|exact L2|intro Q; destruct e0; cbn in *; subst; reflexivity|reflexivity|reflexivity]|]. cbn [ev_id ev_pubkey ev_created_at ev_kind ev_tags ev_content ev_sig].
    eapply (chain_app _ _ _ [_]); [apply ch_created, H6|]. cbn [ev_id ev_pubkey ev_created_at ev_kind ev_tags ev_content ev_sig].
    match goal with |- chain _ _ ?x _ _ => set (e1 := x) end.
    eapply (chain_app _ _ _ [_] (mkEvent (ev_id e1) (ev_pubkey e1) (ev_created_at e1) (ev_kind e1) (ev_tags e') (ev_content e1) (ev_sig e1))).
    { apply chain_one; [eapply reads_raw_name, enc_key; vm_compute; reflexivity|].
      apply (reads_map (array fuel (ltag fuel)) _ (ev_tags e') (fun ts => mkEvent (ev_id e1) (ev_pubkey e1) (ev_created_at e1) (ev_kind e1) ts (ev_content e1) (ev_sig e1))).
      apply m_reads_tags; assumption. }
    subst e1. cbn [ev_id ev_pubkey ev_created_at ev_kind ev_tags ev_content ev_sig].
    match goal with |- chain _ _ ?x _ _ => set (e1 := x) end.
    eapply (chain_app _ _ _ [_] (mkEvent (ev_id e1) (ev_pubkey e1) (ev_created_at e1) (ev_kind e1) (ev_tags e1) (ev_content e') (ev_sig e1))).
    { apply chain_one; [eapply reads_raw_name, enc_key; vm_compute; reflexivity|].
      apply (reads_map lstring _ (ev_content e') (fun s => mkEvent (ev_id e1) (ev_pubkey e1) (ev_created_at e1) (ev_kind e1) (ev_tags e1) s (ev_sig e1))).
      apply reads_string, mended_enc, M3. }
    subst e1. cbn [ev_id ev_pubkey ev_created_at ev_kind ev_tags ev_content ev_sig].
    match goal with |- chain _ _ ?x _ _ => set (e1 := x) end.
    replace e' with (mkEvent (ev_id e1) (ev_pubkey e1) (ev_created_at e1) (ev_kind e1) (ev_tags e1) (ev_content e1) (ev_sig e')) by (subst e1; cbn; rewrite <- M6, <- M7; destruct e'; reflexivity).
    eapply (m_opt (B "sig") (fun x s => mkEvent (ev_id x) (ev_pubkey x) (ev_created_at x) (ev_kind x) (ev_tags x) (ev_content x) s) ev_sig);
      [exact M4|exact L3|intro Q; subst e1; cbn in *; rewrite Q; reflexivity|reflexivity|reflexivity].
  Qed.
End Fuel.

(** ** C17, any bytes *)
(** Every string is mended in exactly one way; what comes out is UTF-8, and UTF-8 comes out as it went in. *)
Theorem C17_mended s : exists t, mended s t /\ (forall t', mended s t' -> t' = t) /\ utf8_text t /\ (t = s <-> utf8_text s) /\ (t = [] <-> s = []).
Proof.
  destruct (mended_exists s) as (t & M). exists t. split; [exact M|]. split; [intros t' M'; exact (mended_fun _ _ _ M' M)|].
  pose proof (mended_text s t M) as T. split; [exact T|]. split.
  - split; [intros <-; exact T|]. intro U. exact (mended_fun _ _ _ M (text_mended s U)).
  - split; [|intros ->; exact (mended_nil t M)]. intros ->. destruct s as [|c s]; [reflexivity|]. destruct (mended_cons c s [] M eq_refl).
Qed.
(** Whatever bytes an event holds, its encoding is read back as the event with every string mended. *)
Theorem C17_any_text e : int64 (ev_created_at e) -> int64 (ev_kind e) -> exists e', mended_event e e' /\ decode_event (encode_event e) = Ok e'.
Proof.
  intros H6 H7. destruct (mended_exists (ev_id e)) as (i & M1). destruct (mended_exists (ev_pubkey e)) as (p & M2). destruct (mended_exists (ev_content e)) as (c & M3). destruct (mended_exists (ev_sig e)) as (g & M4).
  assert (ML : forall l : list str, exists l', Forall2 mended l l').
  { induction l as [|s l (l' & F)]; [exists []; constructor|]. destruct (mended_exists s) as (t & M). exists (t :: l'). constructor; assumption. }
  assert (MT : exists ts, Forall2 (Forall2 mended) (ev_tags e) ts).
  { induction (ev_tags e) as [|s l (l' & F)]; [exists []; constructor|]. destruct (ML s) as (t & M). exists (t :: l'). constructor; assumption. }
  destruct MT as (ts & M5).
  exists (mkEvent i p (ev_created_at e) (ev_kind e) ts c g). assert (ME : mended_event e (mkEvent i p (ev_created_at e) (ev_kind e) ts c g)) by (repeat split; assumption). split; [exact ME|].
  unfold decode_event, decode_event_into. rewrite encode_event_object.
  assert (L : length (jw_array (map jw_strings (ev_tags e))) <= length (object_text (event_members e))).
  { apply (member_length (B "tags", jw_array (map jw_strings (ev_tags e)))). unfold event_members. rewrite !in_app_iff. cbn [In]. tauto. }
  apply decode_object_chain. apply m_event_chain with (e := e); [repeat split|exact H6|exact H7|exact ME| |].
  - pose proof (jw_array_count (map jw_strings (ev_tags e))) as C. rewrite map_length in C. unfold tag, str in *. lia.
  - intros t Ht. pose proof (jw_array_in _ _ (in_map jw_strings _ _ Ht)) as C.
    assert (length t <= length (jw_strings t)); [|unfold tag, str in *; lia].
    unfold jw_strings. pose proof (jw_array_count (map jw_string t)) as C'. rewrite map_length in C'. exact C'.
Qed.
(** So the event comes back as it was exactly when its text is UTF-8. *)
Theorem C17_round_trip_exactly e : int64 (ev_created_at e) -> int64 (ev_kind e) -> (decode_event (encode_event e) = Ok e <-> text_event e).
Proof.
  intros H6 H7. split; [|exact (C17_event_round_trip e)]. intro R. destruct (C17_any_text e H6 H7) as (e' & (M1 & M2 & M3 & M4 & M5 & _) & E).
  assert (e' = e) by congruence. subst e'. repeat split; try (eapply mended_text; eassumption); try apply H6; try apply H7.
  clear -M5. remember (ev_tags e) as ts. clear e Heqts. 
  assert (G : forall a b, Forall2 (Forall2 mended) a b -> Forall (Forall utf8_text) b).
  { induction 1 as [|x y a b F _ IH]; constructor; [|exact IH]. clear -F. induction F; constructor; [eapply mended_text; eassumption|assumption]. }
  exact (G _ _ M5).
Qed.
(** Encoding what came back gives an event that is read back unchanged: after one trip there is nothing left to mend. *)
Theorem C17_second_trip e : int64 (ev_created_at e) -> int64 (ev_kind e) -> exists e', decode_event (encode_event e) = Ok e' /\ decode_event (encode_event e') = Ok e'.
Proof.
  intros H6 H7. destruct (C17_any_text e H6 H7) as (e' & (M1 & M2 & M3 & M4 & M5 & M6 & M7) & E). exists e'. split; [exact E|].
  apply C17_event_round_trip. repeat split; try (eapply mended_text; eassumption); rewrite ?M6, ?M7; try apply H6; try apply H7.
  assert (G : forall a b, Forall2 (Forall2 mended) a b -> Forall (Forall utf8_text) b).
  { induction 1 as [|x y a b F _ IH]; constructor; [|exact IH]. clear -F. induction F; constructor; [eapply mended_text; eassumption|assumption]. }
  exact (G _ _ M5).
Qed.
(** A lone lead byte, an overlong encoding and an encoded surrogate: none of their bytes survives, the letters between them do. *)
Definition bad_event : event := mkEvent (B "a") [] 7 1 [[B "t"; [byte_of 0xC3]]] ([byte_of 0xE2; byte_of 0x82] ++ B "x" ++ [byte_of 0xC0; byte_of 0x80] ++ B "y" ++ [byte_of 0xED; byte_of 0xA0; byte_of 0x80] ++ utf8 0x2028) [].
Example C17_any_text_example : ~ text_event bad_event /\
  decode_event (encode_event bad_event) = Ok (mkEvent (B "a") [] 7 1 [[B "t"; utf8 0xFFFD]] (utf8 0xFFFD ++ utf8 0xFFFD ++ B "x" ++ utf8 0xFFFD ++ utf8 0xFFFD ++ B "y" ++ utf8 0xFFFD ++ utf8 0xFFFD ++ utf8 0xFFFD ++ utf8 0x2028) []).
Proof.
  assert (D : decode_event (encode_event bad_event) = Ok (mkEvent (B "a") [] 7 1 [[B "t"; utf8 0xFFFD]] (utf8 0xFFFD ++ utf8 0xFFFD ++ B "x" ++ utf8 0xFFFD ++ utf8 0xFFFD ++ B "y" ++ utf8 0xFFFD ++ utf8 0xFFFD ++ utf8 0xFFFD ++ utf8 0x2028) [])) by (vm_compute; reflexivity).
  split; [|exact D]. intro T. apply C17_event_round_trip in T. rewrite D in T. discriminate.
Qed.

Print Assumptions C17_mended.
Print Assumptions C17_any_text.
Print Assumptions C17_round_trip_exactly.
Print Assumptions C17_second_trip.
