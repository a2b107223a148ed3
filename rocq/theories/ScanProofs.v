(** The text scanners of helpers.go on encoded EVENT messages. *)
From Verif Require Import Base JsonSpec EventModel EventProofs TagsModel FilterModel JLexModel JLexProofs
  JsonEventProofs EnvelopeModel EnvelopeProofs.
Local Open Scope nat_scope.

Lemma eqb_ceqb c d : Ascii.eqb c d = ceqb c d.
Proof.
  destruct (Ascii.eqb_spec c d) as [->|N]; [symmetry; apply ceqb_refl|symmetry; apply ceqb_neq, N].
Qed.

Lemma after_skip1 c p d r : ceqb c d = false -> after (d :: p) (c :: r) = after (d :: p) r.
Proof. intro H. cbn [after has_prefix]. rewrite eqb_ceqb, ceqb_sym, H. reflexivity. Qed.

Lemma after_miss p c r : has_prefix (c :: r) p = false -> after p (c :: r) = after p r.
Proof. intro H. cbn [after]. rewrite H. reflexivity. Qed.

Lemma after_skip d p t r : forallb (fun c => negb (ceqb c d)) t = true -> after (d :: p) (t ++ r) = after (d :: p) r.
Proof.
  induction t as [|c t IH]; intro H; [reflexivity|]. cbn [forallb] in H. apply andb_true_iff in H as [Hc H].
  apply negb_true_iff in Hc. cbn [app]. rewrite after_skip1 by exact Hc. apply IH, H.
Qed.

Definition hex64 (s : str) : Prop := length s = 64 /\ forallb is_lower_hex_char s = true.
Lemma hex_jw s : forallb is_lower_hex_char s = true -> jw_chars s = s.
Proof.
  assert (G : forall c, (if is_lower_hex_char c then (val c <? 0x80)%N && seqb (jw_ascii c) [c] else true) = true) by (apply bytes_forallb; vm_compute; reflexivity).
  induction s as [|c s IH]; intro H; [reflexivity|]. cbn [forallb] in H. apply andb_true_iff in H as [Hc H].
  specialize (G c). rewrite Hc in G. apply andb_true_iff in G as [G1 G2]. apply seqb_eq in G2. cbn [jw_chars]. rewrite G1, G2, IH by exact H. reflexivity.
Qed.
Lemma hex_no_quote s : forallb is_lower_hex_char s = true -> no_quote s = true.
Proof.
  assert (G : forall c, (if is_lower_hex_char c then negb (ceqb c quote) && negb (ceqb c bslash) else true) = true) by (apply bytes_forallb; vm_compute; reflexivity).
  unfold no_quote. rewrite !forallb_forall. intros H c Hc. specialize (G c). rewrite (H c Hc) in G. exact G.
Qed.
Lemma no_quote_skip s : no_quote s = true -> forallb (fun c => negb (ceqb c quote)) s = true.
Proof. unfold no_quote. rewrite !forallb_forall. intros H c Hc. specialize (H c Hc). apply andb_true_iff in H as [H _]. exact H. Qed.
Lemma dec_Z_skip d z : ceqb "-" d = false -> is_digit d = false -> forallb (fun c => negb (ceqb c d)) (dec_Z z) = true.
Proof.
  intros H1 H2. destruct (dec_Z_shape z) as (c & t & -> & Hc & Ht). 
  assert (D : forall x, is_digit x = true -> negb (ceqb x d) = true).
  { intros x Hx. apply negb_true_iff, ceqb_neq. intros ->. congruence. }
  cbn [forallb]. apply andb_true_iff. split.
  - apply orb_true_iff in Hc as [Hc|Hc]; [apply D, Hc|]. apply negb_true_iff, ceqb_neq. intros ->. rewrite ceqb_sym in Hc. congruence.
  - rewrite forallb_forall in *. intros x Hx. apply D, Ht, Hx.
Qed.

(** A quoted text that is not the one looked for. *)
Lemma after_quoted p s r : no_quote s = true -> no_quote p = true -> s <> p ->
  after (quote :: p ++ [quote]) (quote :: s ++ quote :: r) = after (quote :: p ++ [quote]) (quote :: r).
Proof.
  intros Hs Hp Hn.
  assert (F : has_prefix (s ++ quote :: r) (p ++ [quote]) = false).
  { revert p Hp Hn. induction s as [|c s IH]; intros [|d p] Hp Hn.
    - contradiction.
    - unfold no_quote in Hp. cbn [forallb] in Hp. apply andb_true_iff in Hp as [Hd Hp]. apply andb_true_iff in Hd as [Hd _]. apply negb_true_iff in Hd.
      cbn [app has_prefix]. rewrite eqb_ceqb, Hd. reflexivity.
    - unfold no_quote in Hs. cbn [forallb] in Hs. apply andb_true_iff in Hs as [Hd Hs]. apply andb_true_iff in Hd as [Hd _]. apply negb_true_iff in Hd.
      cbn [app has_prefix]. rewrite eqb_ceqb, ceqb_sym, Hd. reflexivity.
    - unfold no_quote in Hs, Hp. cbn [forallb] in Hs, Hp. apply andb_true_iff in Hs as [_ Hs], Hp as [_ Hp].
      cbn [app has_prefix]. rewrite eqb_ceqb. destruct (ceqb d c) eqn:E; cbn [andb].
      + apply IH; [exact Hs|exact Hp|]. intros ->. apply Hn. f_equal. destruct (ascii_dec d c) as [->|N]; [reflexivity|]. rewrite ceqb_neq in E by exact N. discriminate.
      + reflexivity. }
  cbn [after has_prefix]. rewrite eqb_ceqb, ceqb_refl, F. cbn [andb].
  apply (after_skip quote (p ++ [quote]) s). apply no_quote_skip, Hs.
Qed.

Lemma after_str d p s c r : no_quote s = true -> no_quote (d :: p) = true -> s <> d :: p -> ceqb d c = false ->
  after (qt (d :: p)) (quote :: s ++ quote :: c :: r) = after (qt (d :: p)) (c :: r).
Proof.
  intros H1 H2 H3 H4. unfold qt. rewrite after_quoted by assumption. cbn [app after has_prefix].
  rewrite (eqb_ceqb d c), H4. cbn [andb]. rewrite andb_false_r. reflexivity.
Qed.

Lemma has_prefix_self p r : has_prefix (p ++ r) p = true.
Proof. induction p as [|c p IH]; [reflexivity|]. cbn [app has_prefix]. rewrite eqb_ceqb, ceqb_refl, IH. reflexivity. Qed.

Lemma after_hit p r : after p (p ++ r) = Some r.
Proof.
  assert (E : skipn (length p) (p ++ r) = r) by (rewrite skipn_app, skipn_all, Nat.sub_diag; reflexivity).
  pose proof (has_prefix_self p r) as P. destruct (p ++ r); cbn [after]; rewrite P, E; reflexivity.
Qed.

(** The message of the theorem, and its pieces. *)
Definition event_msg (sub : str) (e : event) : str := B "[""EVENT"",""" ++ sub ++ [quote; ","%char] ++ encode_event e ++ B "]".
Lemma event_msg_marshal sub e : marshal (EEvent (Some sub) e) = Ok (event_msg sub e).
Proof. cbn [marshal]. unfold event_msg. norm_text. reflexivity. Qed.

Definition tail1 (e : event) (r : str) : str :=  (* from created_at on *)
  B ",""created_at"":" ++ dec_Z (ev_created_at e) ++
  B ",""tags"":" ++ jw_array (map jw_strings (ev_tags e)) ++
  B ",""content"":" ++ jw_string (ev_content e) ++
  jw_opt (B ",""sig"":") (ev_sig e) ++ B "}" ++ r.

Lemma encode_event_hex e r : hex64 (ev_id e) -> hex64 (ev_pubkey e) ->
  encode_event e ++ r = "{"%char :: quote :: B "kind" ++ quote :: ":"%char :: dec_Z (ev_kind e) ++ ","%char ::
    quote :: B "id" ++ quote :: ":"%char :: quote :: ev_id e ++ quote :: ","%char ::
    quote :: B "pubkey" ++ quote :: ":"%char :: quote :: ev_pubkey e ++ quote :: tail1 e r.
Proof.
  intros [L1 H1] [L2 H2]. unfold encode_event, jw_opt at 1 2.
  destruct (ev_id e) as [|a i] eqn:E1; [discriminate L1|]. destruct (ev_pubkey e) as [|b k] eqn:E2; [discriminate L2|].
  unfold jw_string at 1 2. rewrite (hex_jw (a :: i)), (hex_jw (b :: k)) by assumption. unfold tail1.
  cbn [B list_ascii_of_string app]. repeat (progress (rewrite <- ?app_assoc; cbn [app])). reflexivity.
Qed.

Lemma event_msg_split sub e : event_msg sub e = "["%char :: quote :: B "EVENT" ++ quote :: ","%char :: quote :: sub ++ quote :: ","%char :: encode_event e ++ B "]".
Proof. reflexivity. Qed.

Ltac step_str := rewrite after_str; [|vm_compute; reflexivity|vm_compute; reflexivity|discriminate|vm_compute; reflexivity].

Lemma take64_hex i r : hex64 i -> take64 (":"%char :: quote :: i ++ r) = Ok i.
Proof.
  intros [L H]. unfold take64. cbn [cut_quote]. change (ceqb ":" quote) with false. change (ceqb quote quote) with true. cbv iota.
  rewrite app_length, L. change (Nat.ltb (64 + length r) 64) with (64 + length r <? 64).
  destruct (Nat.ltb_spec (64 + length r) 64); [lia|]. rewrite <- L, firstn_app, firstn_all, Nat.sub_diag. cbn [firstn]. rewrite app_nil_r. reflexivity.
Qed.

Lemma scan_sub sub e : no_quote sub = true -> extract_sub_id (event_msg sub e) = Ok sub.
Proof.
  intro H. rewrite event_msg_split. unfold extract_sub_id.
  change (after (B """EVENT""") ("["%char :: quote :: B "EVENT" ++ quote :: ","%char :: quote :: sub ++ quote :: ","%char :: encode_event e ++ B "]"))
    with (Some (","%char :: quote :: sub ++ quote :: ","%char :: encode_event e ++ B "]")).
  cbn [cut_quote]. change (ceqb "," quote) with false. change (ceqb quote quote) with true. cbv iota.
  rewrite cut_quote_plain by exact H. reflexivity.
Qed.

Lemma qt_skip1 c p r : ceqb c quote = false -> after (qt p) (c :: r) = after (qt p) r.
Proof. apply after_skip1. Qed.
Lemma qt_skip p t r : forallb (fun c => negb (ceqb c quote)) t = true -> after (qt p) (t ++ r) = after (qt p) r.
Proof. apply after_skip. Qed.
Lemma qt_hit p r : after (qt p) (quote :: p ++ quote :: r) = Some r.
Proof. replace (quote :: p ++ quote :: r) with (qt p ++ r) by (unfold qt; cbn [app]; rewrite <- app_assoc; reflexivity). apply after_hit. Qed.

Lemma scan_id sub e : hex64 (ev_id e) -> hex64 (ev_pubkey e) ->
  extract_event_id (skipn (10 + length sub) (event_msg sub e)) = Ok (ev_id e).
Proof.
  intros H1 H2. rewrite event_msg_split.
  replace (skipn (10 + length sub) ("["%char :: quote :: B "EVENT" ++ quote :: ","%char :: quote :: sub ++ quote :: ","%char :: encode_event e ++ B "]"))
    with (quote :: ","%char :: encode_event e ++ B "]").
  2:{ cbn [B list_ascii_of_string app skipn Nat.add]. rewrite skipn_app, skipn_all, Nat.sub_diag. reflexivity. }
  rewrite encode_event_hex by assumption. unfold extract_event_id.
  change (B """id""") with (qt (B "id")).
  assert (S1 : after (qt (B "id")) (quote :: ","%char :: "{"%char :: quote :: B "kind" ++ quote :: ":"%char :: dec_Z (ev_kind e) ++ ","%char ::
    quote :: B "id" ++ quote :: ":"%char :: quote :: ev_id e ++ quote :: ","%char ::
    quote :: B "pubkey" ++ quote :: ":"%char :: quote :: ev_pubkey e ++ quote :: tail1 e (B "]")) =
    after (qt (B "id")) (dec_Z (ev_kind e) ++ ","%char ::
    quote :: B "id" ++ quote :: ":"%char :: quote :: ev_id e ++ quote :: ","%char ::
    quote :: B "pubkey" ++ quote :: ":"%char :: quote :: ev_pubkey e ++ quote :: tail1 e (B "]"))) by reflexivity.
  rewrite S1. clear S1.
  rewrite qt_skip by (apply dec_Z_skip; reflexivity).
  rewrite qt_skip1 by reflexivity. rewrite qt_hit. apply take64_hex, H1.
Qed.

(** The scan for a key that is neither the label nor the subscription id reaches the event object. *)
Lemma reach_event d p sub e r : no_quote sub = true -> no_quote (d :: p) = true -> sub <> d :: p -> B "EVENT" <> d :: p -> B "kind" <> d :: p ->
  ceqb d ","%char = false -> ceqb d ":"%char = false ->
  after (qt (d :: p)) ("["%char :: quote :: B "EVENT" ++ quote :: ","%char :: quote :: sub ++ quote :: ","%char :: 
     "{"%char :: quote :: B "kind" ++ quote :: ":"%char :: dec_Z (ev_kind e) ++ ","%char :: r) = after (qt (d :: p)) r.
Proof.
  intros H1 H2 H3 H4 H5 H6 H7.
  rewrite qt_skip1 by reflexivity. rewrite (after_str d p (B "EVENT")) by (try assumption; reflexivity).
  rewrite qt_skip1 by reflexivity. rewrite (after_str d p sub) by assumption.
  rewrite 2 qt_skip1 by reflexivity. rewrite (after_str d p (B "kind")) by (try assumption; reflexivity).
  rewrite qt_skip1 by reflexivity. rewrite qt_skip by (apply dec_Z_skip; reflexivity). rewrite qt_skip1 by reflexivity. reflexivity.
Qed.

Lemma scan_pubkey sub e : no_quote sub = true -> sub <> B "pubkey" -> hex64 (ev_id e) -> hex64 (ev_pubkey e) ->
  extract_pubkey (event_msg sub e) = Ok (ev_pubkey e).
Proof.
  intros H0 Hn H1 H2. rewrite event_msg_split, encode_event_hex by assumption. unfold extract_pubkey.
  change (B """pubkey""") with (qt ("p"%char :: B "ubkey")).
  rewrite reach_event by (try assumption; try reflexivity; discriminate).
  rewrite (after_str _ _ (B "id")) by (try reflexivity; discriminate).
  rewrite qt_skip1 by reflexivity.
  rewrite (after_str _ _ (ev_id e)); [|apply hex_no_quote, H1|reflexivity| |reflexivity].
  2:{ destruct H1 as [L _]. intro E. rewrite E in L. discriminate L. }
  rewrite qt_skip1 by reflexivity.
  change (quote :: B "pubkey" ++ ?r) with (quote :: ("p"%char :: B "ubkey") ++ r).
  rewrite qt_hit. apply take64_hex, H2.
Qed.

Lemma g_span_skip stop t r : forallb (fun c => negb (stop c)) t = true -> g_span stop (t ++ r) = let '(a, b) := g_span stop r in (t ++ a, b).
Proof.
  induction t as [|c t IH]; intro H; [cbn [app]; destruct (g_span stop r); reflexivity|]. cbn [forallb] in H. apply andb_true_iff in H as [Hc H].
  apply negb_true_iff in Hc. cbn [app g_span]. rewrite Hc, IH by exact H. destruct (g_span stop r). reflexivity.
Qed.

Definition ts_tail (r : str) : Z :=
    match g_span is_digit r with
    | (_, []) => 0%Z
    | (_, d) =>
      match g_span (fun c => ceqb c ","%char || ceqb c "}"%char || ceqb c " "%char) d with
      | (_, []) => 0%Z
      | (t, _) => lenient_int t
      end
    end.
Lemma ts_value z r : (0 <= z <= max_int64)%Z -> ts_tail (":"%char :: dec_Z z ++ ","%char :: r) = z.
Proof.
  intro H. assert (D : dec_Z z = dec_N (Z.to_N z)) by (destruct z; [reflexivity|reflexivity|lia]).
  destruct (dec_N_head (Z.to_N z)) as (c & t & Ec & Hc).
  unfold ts_tail. cbn [g_span]. change (is_digit ":") with false. cbv iota.
  assert (G : g_span is_digit (dec_Z z ++ ","%char :: r) = ([], dec_Z z ++ ","%char :: r)).
  { rewrite D, Ec. cbn [app g_span]. rewrite Hc. reflexivity. }
  rewrite G.
  assert (N : forallb (fun c => negb (ceqb c ","%char || ceqb c "}"%char || ceqb c " "%char)) (dec_Z z) = true).
  { rewrite D. pose proof (dec_N_digits (Z.to_N z)) as Q. rewrite forallb_forall in *. intros x Hx. specialize (Q x Hx).
    assert (P : forall c, (if is_digit c then negb (ceqb c ","%char || ceqb c "}"%char || ceqb c " "%char) else true) = true) by (apply bytes_forallb; vm_compute; reflexivity).
    specialize (P x). rewrite Q in P. exact P. }
  rewrite g_span_skip by exact N. cbn [g_span]. change (ceqb "," ","%char || ceqb "," "}"%char || ceqb "," " "%char) with true. cbv iota.
  rewrite app_nil_r. destruct (dec_Z z ++ ","%char :: r) eqn:E; [destruct (dec_Z z); discriminate E|].
  unfold lenient_int. rewrite parse_int_dec_Z; [reflexivity|]. unfold min_int64, max_int64 in *. lia.
Qed.

Lemma scan_timestamp sub e : no_quote sub = true -> sub <> B "created_at" -> hex64 (ev_id e) -> hex64 (ev_pubkey e) ->
  (0 <= ev_created_at e <= max_int64)%Z ->
  extract_timestamp (event_msg sub e) = ev_created_at e.
Proof.
  intros H0 Hn H1 H2 H3. rewrite event_msg_split, encode_event_hex by assumption. unfold extract_timestamp.
  change (B """created_at""") with (qt ("c"%char :: B "reated_at")).
  rewrite reach_event by (try assumption; try reflexivity; discriminate).
  rewrite (after_str _ _ (B "id")) by (try reflexivity; discriminate).
  rewrite qt_skip1 by reflexivity.
  rewrite (after_str _ _ (ev_id e)); [|apply hex_no_quote, H1|reflexivity| |reflexivity].
  2:{ destruct H1 as [L _]. intro E. rewrite E in L. discriminate L. }
  rewrite qt_skip1 by reflexivity.
  rewrite (after_str _ _ (B "pubkey")) by (try reflexivity; discriminate).
  rewrite qt_skip1 by reflexivity.
  unfold tail1. change (B ",""created_at"":") with (","%char :: (quote :: B "created_at" ++ [quote]) ++ B ":"). cbn [app].
  rewrite (after_str _ _ (ev_pubkey e)); [|apply hex_no_quote, H2|reflexivity| |reflexivity].
  2:{ destruct H2 as [L _]. intro E. rewrite E in L. discriminate L. }
  rewrite qt_skip1 by reflexivity.
  match goal with |- context [after ?p (quote :: ?x)] =>
    let H := fresh in assert (H : after p (quote :: x) = Some (skipn 11 x)) by (exact (qt_hit (B "created_at") (skipn 11 x))); rewrite H end.
  exact (ts_value _ _ H3).
Qed.

(** ** The d tag *)
Definition dpat : str := B "[""d""".
Definition skips (t : str) : Prop := forall r, (match r with c :: _ => ceqb c "d"%char = false | [] => True end) -> after dpat (t ++ r) = after dpat r.

Lemma dpat_skip1 c r : ceqb c "["%char = false -> after dpat (c :: r) = after dpat r.
Proof. apply after_skip1. Qed.

Lemma body_head t v : enc_chars t v -> match t with [] => True | c :: _ => c <> quote end.
Proof. intro H. destruct H as [|t v t' v' H1 H2]; [exact I|]. destruct H1; cbn [app]; [assumption|discriminate|discriminate]. Qed.

Lemma hex_val_lbr c n : hex_val c = Some n -> ceqb c "["%char = false.
Proof.
  assert (G : forall c, (match hex_val c with Some _ => negb (ceqb c "["%char) | None => true end) = true) by (apply bytes_forallb; vm_compute; reflexivity).
  intro H. specialize (G c). rewrite H in G. apply negb_true_iff, G.
Qed.
Lemma simple_lbr e v : simple_escape e = Some v -> ceqb e "["%char = false.
Proof.
  assert (G : forall c, (match simple_escape c with Some _ => negb (ceqb c "["%char) | None => true end) = true) by (apply bytes_forallb; vm_compute; reflexivity).
  intro H. specialize (G e). rewrite H in G. apply negb_true_iff, G.
Qed.

Lemma skip_body t v : enc_chars t v -> forall r, (match r with c :: _ => ceqb c "d"%char = false | [] => True end) ->
  after dpat (t ++ quote :: r) = after dpat r.
Proof.
  intros H r Hr. induction H as [|t v t' v' H1 H2 IH].
  - cbn [app]. rewrite dpat_skip1 by reflexivity. reflexivity.
  - rewrite <- app_assoc. destruct H1 as [c H1 H3 H4|e v H|a b c d cp H1 H3]; cbn [app].
    + destruct (ceqb c "["%char) eqn:E; [|rewrite dpat_skip1 by exact E; exact IH].
      assert (F : has_prefix (c :: t' ++ quote :: r) dpat = false).
      { unfold dpat. cbn [B list_ascii_of_string has_prefix]. rewrite (eqb_ceqb "[" c), (ceqb_sym "[" c), E. cbn [andb].
        pose proof (body_head _ _ H2) as Hd. destruct t' as [|x t'].
        - cbn [app]. change ("034" =? quote)%char with true. cbn [andb]. destruct r as [|y r]; [reflexivity|].
          rewrite (eqb_ceqb "d" y), (ceqb_sym "d" y), Hr. reflexivity.
        - cbn [app]. assert (X : ("034" =? x)%char = false) by (rewrite eqb_ceqb; apply ceqb_neq; intro Q; apply Hd; rewrite <- Q; reflexivity).
          rewrite X. reflexivity. }
      rewrite after_miss by exact F. exact IH.
    + rewrite dpat_skip1 by reflexivity. rewrite dpat_skip1 by (apply (simple_lbr _ _ H)). exact IH.
    + destruct (hex4_some _ _ _ _ _ H1) as (n1 & n2 & n3 & n4 & Q1 & Q2 & Q3 & Q4).
      rewrite 2 dpat_skip1 by reflexivity.
      rewrite (dpat_skip1 a) by (eapply hex_val_lbr; eassumption). rewrite (dpat_skip1 b) by (eapply hex_val_lbr; eassumption).
      rewrite (dpat_skip1 c) by (eapply hex_val_lbr; eassumption). rewrite (dpat_skip1 d) by (eapply hex_val_lbr; eassumption). exact IH.
Qed.

Lemma skips_string s : utf8_text s -> skips (jw_string s).
Proof.
  intros H r Hr. unfold jw_string. cbn [app]. rewrite dpat_skip1 by reflexivity. rewrite app_cons_assoc. cbn [app].
  eapply skip_body; [apply jw_chars_enc, H|exact Hr].
Qed.
Lemma skips_tails l : Forall utf8_text l -> skips (tails (map jw_string l)).
Proof.
  induction 1 as [|s l H1 H2 IH]; intros r Hr; [reflexivity|]. cbn [map]. rewrite tails_cons. cbn [app].
  rewrite dpat_skip1 by reflexivity. rewrite <- app_assoc. rewrite skips_string; [apply IH, Hr|exact H1|].
  destruct l; [exact Hr|reflexivity].
Qed.

Lemma not_d s r : utf8_text s -> s <> B "d" -> has_prefix (jw_chars s ++ quote :: r) (B "d""") = false.
Proof.
  intros H N. pose proof (jw_chars_enc s H) as E. destruct (jw_chars s) as [|c t] eqn:J; [reflexivity|].
  cbn [app B list_ascii_of_string has_prefix]. destruct (Ascii.eqb_spec "d" c) as [<-|X]; [|reflexivity]. cbn [andb].
  inversion E as [|t1 v1 t2 v2 E1 E2 Q1 Q2]; subst. destruct E1 as [c H1 H3 H4|e v H1|a b c d cp H1 H3]; try discriminate Q1.
  injection Q1 as -> ->. pose proof (body_head _ _ E2) as Hd. destruct t as [|x t].
  - inversion E2 as [X1 X2|? ? ? ? Z1 Z2 Z3]; [exfalso; apply N; subst; reflexivity|destruct Z1; discriminate Z3].
  - cbn [app]. destruct (Ascii.eqb_spec "034" x) as [<-|]; [exfalso; apply Hd; reflexivity|reflexivity].
Qed.

Definition is_d (t : tag) : bool := match t with k :: _ => seqb k (B "d") | [] => false end.
Lemma skips_tag t : Forall utf8_text t -> is_d t = false -> skips (jw_strings t).
Proof.
  intros H N r Hr. unfold jw_strings, jw_array. destruct H as [|s l H1 H2]; [reflexivity|].
  cbn [is_d] in N. cbn [map]. rewrite comma_sep_cons. unfold jw_string at 1. cbn [app]. repeat (rewrite <- app_assoc; cbn [app]).
  assert (F : has_prefix ("["%char :: quote :: jw_chars s ++ quote :: tails (map jw_string l) ++ "]"%char :: r) dpat = false).
  { pose proof (not_d s (tails (map jw_string l) ++ "]"%char :: r) H1) as Q. unfold dpat.
    change (has_prefix ("["%char :: quote :: ?x) (B "[""d""")) with (has_prefix x (B "d""")). apply Q.
    intros ->. discriminate N. }
  rewrite after_miss by exact F. rewrite dpat_skip1 by reflexivity.
  rewrite (skip_body _ _ (jw_chars_enc s H1)); [|destruct l; reflexivity].
  rewrite skips_tails; [|exact H2|reflexivity]. rewrite dpat_skip1 by reflexivity. reflexivity.
Qed.

Lemma skips_plain t r : forallb (fun c => negb (ceqb c "["%char)) t = true -> after dpat (t ++ r) = after dpat r.
Proof. apply after_skip. Qed.

(** The scan through the list of tags: to the first d tag, or through all of it. *)
Lemma scan_tags ts r : Forall (Forall utf8_text) ts -> (match r with c :: _ => ceqb c "d"%char = false | [] => True end) ->
  match find is_d ts with
  | None => after dpat (tails (map jw_strings ts) ++ r) = after dpat r
  | Some t => exists x, after dpat (tails (map jw_strings ts) ++ r) = Some (tails (map jw_string (tl t)) ++ "]"%char :: x)
  end.
Proof.
  induction 1 as [|t ts H1 H2 IH]; intro Hr; [reflexivity|]. cbn [find map]. rewrite tails_cons. cbn [app]. rewrite dpat_skip1 by reflexivity. rewrite <- app_assoc.
  destruct (is_d t) eqn:D.
  - destruct t as [|k l]; [discriminate|]. cbn [is_d] in D. apply seqb_eq in D. subst k. cbn [tl].
    exists (tails (map jw_strings ts) ++ r). unfold jw_strings, jw_array. cbn [map]. rewrite comma_sep_cons.
    change (jw_string (B "d")) with (quote :: "d"%char :: [quote]). cbn [app]. rewrite <- app_assoc. cbn [app].
    apply (after_hit dpat).
  - specialize (IH Hr). destruct (find is_d ts).
    + destruct IH as (x & IH). exists x. rewrite skips_tag; [exact IH|exact H1|exact D|destruct ts; [exact Hr|reflexivity]].
    + rewrite skips_tag; [exact IH|exact H1|exact D|destruct ts; [exact Hr|reflexivity]].
Qed.

(** Written unescaped: the encoder leaves it as it is. *)
Definition unescaped (v : str) : Prop := utf8_text v /\ jw_chars v = v.
Lemma utf8_length cp : length (utf8 cp) <= 4.
Proof. unfold utf8. repeat (match goal with |- context [if ?b then _ else _] => destruct b end); cbn; lia. Qed.
Lemma enc_chars_same t v : enc_chars t v -> no_quote t = true \/ length v < length t.
Proof.
  induction 1 as [|t v t' v' H1 H2 IH]; [left; reflexivity|]. rewrite !app_length.
  assert (L : length v' <= length t').
  { clear IH H1 t v. induction H2 as [|t v t' v' H1 H2 IH]; [lia|]. rewrite !app_length.
    destruct H1 as [c H1 H3 H4|e v H|a b c d cp H1 H3]; [cbn; lia|cbn; lia|]. pose proof (utf8_length cp). cbn [length]. lia. }
  destruct H1 as [c H1 H3 H4|e v H|a b c d cp H1 H3].
  - destruct IH as [IH|IH]; [left|right; cbn; lia]. cbn [app]. unfold no_quote in *. cbn [forallb]. rewrite !ceqb_neq by assumption. exact IH.
  - right. cbn. lia.
  - right. pose proof (utf8_length cp). cbn [length]. lia.
Qed.
Lemma unescaped_no_quote v : unescaped v -> no_quote v = true.
Proof. intros [H1 H2]. pose proof (jw_chars_enc v H1) as E. rewrite H2 in E. destruct (enc_chars_same _ _ E) as [H|H]; [exact H|lia]. Qed.

Definition d_value (ts : list tag) : str := match find is_d ts with Some (_ :: v :: _) => v | _ => [] end.

Lemma scan_d sub e : no_quote sub = true -> hex64 (ev_id e) -> hex64 (ev_pubkey e) -> text_event e ->
  (forall t, find is_d (ev_tags e) = Some t -> exists v l, t = B "d" :: v :: l /\ unescaped v) ->
  extract_d_tag (event_msg sub e) = d_value (ev_tags e).
Proof.
  intros H0 H1 H2 HT HD. destruct HT as (_ & _ & T3 & T4 & T5 & _ & _). rewrite event_msg_split, encode_event_hex by assumption. unfold extract_d_tag.
  fold dpat.
  assert (HH : forall s, forallb is_lower_hex_char s = true -> forallb (fun c => negb (ceqb c "["%char)) s = true).
  { assert (G : forall c, (if is_lower_hex_char c then negb (ceqb c "["%char) else true) = true) by (apply bytes_forallb; vm_compute; reflexivity).
    intros s. rewrite !forallb_forall. intros H c Hc. specialize (G c). rewrite (H c Hc) in G. exact G. }
  assert (S0 : forall r, after dpat ("["%char :: quote :: B "EVENT" ++ quote :: ","%char :: quote :: sub ++ quote :: ","%char :: r) = after dpat (","%char :: r)).
  { intro r. change (after dpat ("["%char :: quote :: B "EVENT" ++ quote :: ","%char :: quote :: sub ++ quote :: ","%char :: r))
      with (after dpat (sub ++ quote :: ","%char :: r)).
    clear - H0. induction sub as [|c s IH]; [reflexivity|].
    unfold no_quote in H0. cbn [forallb] in H0. apply andb_true_iff in H0 as [Hc H0]. apply andb_true_iff in Hc as [Hc _]. apply negb_true_iff in Hc.
    cbn [app]. rewrite <- (IH H0). apply after_miss. unfold dpat. cbn [B list_ascii_of_string has_prefix]. destruct s as [|x s].
    - cbn [app]. change ("d" =? ",")%char with false. rewrite !andb_false_r. reflexivity.
    - unfold no_quote in H0. cbn [forallb] in H0. apply andb_true_iff in H0 as [Hx H0]. apply andb_true_iff in Hx as [Hx _]. apply negb_true_iff in Hx.
      cbn [app]. rewrite (eqb_ceqb "034" x). change "034"%char with quote. rewrite (ceqb_sym quote x), Hx. rewrite andb_false_r. reflexivity. }
  rewrite S0. clear S0. rewrite 3 dpat_skip1 by reflexivity.
  rewrite skips_plain by reflexivity. rewrite 2 dpat_skip1 by reflexivity.
  rewrite skips_plain by (apply dec_Z_skip; reflexivity). rewrite 2 dpat_skip1 by reflexivity.
  rewrite skips_plain by reflexivity. rewrite 3 dpat_skip1 by reflexivity. rewrite skips_plain by (apply HH, H1).
  rewrite 3 dpat_skip1 by reflexivity. rewrite skips_plain by reflexivity. rewrite 3 dpat_skip1 by reflexivity.
  rewrite skips_plain by (apply HH, H2). rewrite dpat_skip1 by reflexivity.
  unfold tail1. rewrite skips_plain by reflexivity. rewrite skips_plain by (apply dec_Z_skip; reflexivity).
  rewrite skips_plain by reflexivity.
  set (R := B ",""content"":" ++ jw_string (ev_content e) ++ jw_opt (B ",""sig"":") (ev_sig e) ++ B "}" ++ B "]").
  assert (RN : after dpat ("]"%char :: R) = None).
  { rewrite dpat_skip1 by reflexivity. unfold R. rewrite skips_plain by reflexivity. rewrite skips_string; [|exact T3|destruct (ev_sig e); reflexivity].
    destruct (ev_sig e) as [|c s] eqn:Q; [reflexivity|]. cbn [jw_opt]. rewrite <- app_assoc, skips_plain by reflexivity.
    rewrite skips_string; [reflexivity|exact T4|reflexivity]. }
  unfold jw_array. cbn [app]. rewrite <- app_assoc. cbn [app].
  pose proof (scan_tags (ev_tags e) ("]"%char :: R) T5 eq_refl) as ST.
  assert (C : after dpat ("["%char :: comma_sep (map jw_strings (ev_tags e)) ++ "]"%char :: R) = after dpat (tails (map jw_strings (ev_tags e)) ++ "]"%char :: R)).
  { destruct (ev_tags e) as [|t ts]; [reflexivity|]. cbn [map]. rewrite comma_sep_cons, tails_cons. cbn [app].
    rewrite (dpat_skip1 ","%char) by reflexivity. apply after_miss. reflexivity. }
  rewrite C. clear C. unfold d_value. destruct (find is_d (ev_tags e)) as [t|] eqn:F.
  - destruct (HD t eq_refl) as (v & l & -> & Hv). destruct ST as (x & ST). rewrite ST. cbn [tl map]. rewrite tails_cons. unfold jw_string at 1.
    destruct Hv as [Hv1 Hv2]. rewrite Hv2. cbn [app]. repeat (rewrite <- app_assoc; cbn [app]). cbn [cut_quote].
    change (ceqb "," quote) with false. change (ceqb quote quote) with true. cbv iota.
    rewrite cut_quote_plain by (apply unescaped_no_quote; split; assumption). reflexivity.
  - rewrite ST, RN. reflexivity.
Qed.
