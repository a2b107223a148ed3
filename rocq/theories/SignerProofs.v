(** Proofs about remote signers: the table of sessions, requests and answers. *)
From Coq Require Import Sorted.
From Verif Require Import Base Machine EventModel EventProofs TagsModel JLexModel JLexProofs JsonEventProofs CipherModel CipherProofs CryptoModel CryptoProofs Nip19Model GiftModel GiftProofs SignerModel.
Import ListNotations.
Open Scope nat_scope.

(** ** The table *)
Definition slt (a b : str) : Prop := scmp a b = Lt.
Lemma slt_irrefl a : ~ slt a a. Proof. unfold slt. rewrite scmp_refl. discriminate. Qed.
Lemma sorted_nth x : StronglySorted slt x -> forall i j a b, i < j -> nth_error x i = Some a -> nth_error x j = Some b -> slt a b.
Proof.
  induction 1 as [|y x HS IH HF]; intros i j a b HI A C; [destruct i; discriminate|]. destruct j as [|j]; [lia|]. destruct i as [|i]; cbn [nth_error] in *.
  - assert (y = a) by congruence. subst y. rewrite Forall_forall in HF. apply HF. eapply nth_error_In. exact C.
  - apply (IH i j); [lia|assumption..].
Qed.
Lemma sb_loop_spec x target : StronglySorted slt x -> forall fuel i j, j - i <= fuel -> i <= j -> j <= length x ->
  (forall k y, k < i -> nth_error x k = Some y -> slt y target) -> (forall k y, j <= k -> nth_error x k = Some y -> ~ slt y target) ->
  let r := sb_loop fuel x target i j in r <= length x /\ (forall k y, k < r -> nth_error x k = Some y -> slt y target) /\ (forall k y, r <= k -> nth_error x k = Some y -> ~ slt y target).
Proof.
  intro HS. induction fuel as [|f IH]; intros i j Hf Hij Hj H1 H2; cbn [sb_loop].
  - assert (i = j) as -> by lia. auto.
  - destruct (Nat.ltb_spec i j) as [HL|HL]; [|assert (i = j) as -> by lia; auto]. set (h := (i + j) / 2). assert (Hh : i <= h < j).
    { unfold h. split; [apply Nat.div_le_lower_bound; lia|apply Nat.div_lt_upper_bound; lia]. }
    clearbody h. destruct (nth_error x h) as [y|] eqn:E; [|apply nth_error_None in E; lia].
    assert (G : scmp y target <> Lt -> forall k z, h <= k -> nth_error x k = Some z -> ~ slt z target).
    { intros N k z HK HZ Q. destruct (Nat.eq_dec h k) as [->|D]; [congruence|]. apply N. apply (scmp_lt_trans _ z); [|exact Q]. apply (sorted_nth x HS h k); [lia|assumption..]. }
    destruct (scmp y target) eqn:EC.
    + apply IH; try lia; [exact H1|]. apply G. discriminate.
    + apply IH; try lia; [|exact H2]. intros k z HK HZ. destruct (Nat.eq_dec k h) as [->|D]; [assert (z = y) by congruence; subst z; exact EC|]. apply (scmp_lt_trans _ y); [|exact EC]. apply (sorted_nth x HS k h); [lia|assumption..].
    + apply IH; try lia; [exact H1|]. apply G. discriminate.
Qed.
Lemma bin_search_spec x target : StronglySorted slt x -> let '(i, found) := bin_search x target in
  i <= length x /\ (forall k y, k < i -> nth_error x k = Some y -> slt y target) /\ (forall k y, i <= k -> nth_error x k = Some y -> ~ slt y target) /\
  (found = true -> nth_error x i = Some target) /\ (In target x -> found = true).
Proof.
  intro HS. unfold bin_search. assert (S2 : forall k y, length x <= k -> nth_error x k = Some y -> ~ slt y target) by (intros k y HK E; exfalso; apply nth_error_None in HK; congruence).
  destruct (sb_loop_spec x target HS (length x) 0 (length x) ltac:(lia) ltac:(lia) ltac:(lia) ltac:(intros k y HK; inversion HK) S2) as (A & B & C).
  set (i := sb_loop (length x) x target 0 (length x)) in *. split; [exact A|]. split; [exact B|]. split; [exact C|]. split.
  - destruct (nth_error x i) as [y|] eqn:E; [|discriminate]. intro H. apply seqb_eq in H. congruence.
  - intro H. apply In_nth_error in H as [k HK]. destruct (Nat.lt_trichotomy k i) as [D|[D|D]].
    + exfalso. apply (slt_irrefl target). apply (B k); assumption.
    + subst k. rewrite HK. apply seqb_refl.
    + destruct (nth_error x i) as [y|] eqn:E; [|exfalso; apply nth_error_None in E; assert (k < length x) by (apply nth_error_Some; congruence); lia].
      exfalso. apply (C i y); [lia|exact E|]. apply (sorted_nth x HS i k); assumption.
Qed.
Lemma firstn_upd {A} (l : list A) i x : i < length l -> upd l i x = firstn i l ++ x :: skipn (S i) l.
Proof. revert i. induction l as [|y l IH]; intros [|i] H; cbn in *; try lia; [reflexivity|]. rewrite IH by lia. reflexivity. Qed.
Lemma insert_at_spec {A} (l : list A) zero x idx : idx <= length l -> insert_at l zero x idx = firstn idx l ++ x :: skipn idx l.
Proof.
  intro H. unfold insert_at. set (l1 := l ++ [zero]). assert (L1 : length l1 = length l + 1) by (unfold l1; rewrite app_length; reflexivity).
  assert (F : length (firstn (idx + 1) l1) = idx + 1) by (rewrite firstn_length_le; lia). rewrite firstn_upd by (rewrite app_length, F; lia). f_equal.
  - rewrite firstn_app, F. replace (idx - (idx + 1)) with 0 by lia. cbn [firstn]. rewrite app_nil_r, firstn_firstn. replace (Nat.min idx (idx + 1)) with idx by lia. unfold l1. rewrite firstn_app. replace (idx - length l) with 0 by lia. cbn [firstn]. apply app_nil_r.
  - f_equal. rewrite skipn_app, F. replace (S idx - (idx + 1)) with 0 by lia. rewrite (skipn_all2 (firstn (idx + 1) l1)) by (rewrite F; lia). rewrite skipn_O. cbn [app]. rewrite L1. unfold l1. rewrite skipn_app. replace (idx - length l) with 0 by lia. rewrite skipn_O.
    rewrite firstn_app, skipn_length. replace (length l + 1 - (idx + 1) - (length l - idx)) with 0 by lia. cbn [firstn]. rewrite app_nil_r. apply firstn_all2. rewrite skipn_length. lia.
Qed.
Lemma sorted_insert l x i : StronglySorted slt l -> (forall k y, k < i -> nth_error l k = Some y -> slt y x) -> (forall k y, i <= k -> nth_error l k = Some y -> slt x y) -> StronglySorted slt (firstn i l ++ x :: skipn i l).
Proof.
  intros HS. revert i. induction HS as [|y l HS IH HF]; intros i A C; [destruct i; cbn; repeat constructor|]. destruct i as [|i]; cbn [firstn skipn app].
  - constructor; [constructor; assumption|]. apply Forall_forall. intros z HZ. apply In_nth_error in HZ as [k HK]. apply (C k); [lia|exact HK].
  - constructor; [apply IH; [intros k z HK; apply (A (S k)); lia|intros k z HK; apply (C (S k)); lia]|]. apply Forall_app. rewrite Forall_forall in HF. split; [apply Forall_forall; intros z HZ; apply HF; rewrite <- (firstn_skipn i l); apply in_or_app; left; exact HZ|]. constructor; [apply (A 0); [lia|reflexivity]|]. apply Forall_forall. intros z HZ. apply HF. rewrite <- (firstn_skipn i l). apply in_or_app. right. exact HZ.
Qed.

(** The table as an association list. *)
Definition good_table (t : table) (al : list (str * session)) : Prop := tb_keys t = map fst al /\ tb_sessions t = map snd al /\ StronglySorted slt (map fst al).
Fixpoint assoc (k : str) (al : list (str * session)) : option session := match al with [] => None | (k', s) :: r => if seqb k k' then Some s else assoc k r end.
Lemma sorted_nodup l : StronglySorted slt l -> NoDup l.
Proof. induction 1 as [|x l HS IH HF]; constructor; [|exact IH]. intro H. rewrite Forall_forall in HF. apply (slt_irrefl x). apply HF. exact H. Qed.
Lemma assoc_in k s al : NoDup (map fst al) -> (assoc k al = Some s <-> In (k, s) al).
Proof.
  induction al as [|[k' s'] al IH]; intro ND; [split; [discriminate|intros []]|]. cbn [map fst assoc In] in *. inversion ND as [|x l N1 N2]; subst. destruct (seqb k k') eqn:E.
  - apply seqb_eq in E. subst k'. split; [intro H; left; congruence|]. intros [H|H]; [congruence|]. exfalso. apply N1. change k with (fst (k, s)). apply in_map. exact H.
  - rewrite IH by exact N2. split; [auto|]. intros [H|H]; [|exact H]. assert (k' = k) by congruence. subst k'. rewrite seqb_refl in E. discriminate.
Qed.
Lemma assoc_none k al : assoc k al = None <-> ~ In k (map fst al).
Proof.
  induction al as [|[k' s'] al IH]; cbn [map fst assoc In]; [split; auto|]. destruct (seqb k k') eqn:E.
  - apply seqb_eq in E. subst k'. split; [discriminate|]. intro H. exfalso. apply H. left. reflexivity.
  - rewrite IH. split; intros H Q; apply H; [destruct Q as [Q|Q]; [subst k'; rewrite seqb_refl in E; discriminate|exact Q]|right; exact Q].
Qed.
Lemma get_session_spec t al k : good_table t al -> get_session t k = Ok (assoc k al).
Proof.
  intros (HK & HS & HO). unfold get_session. rewrite HK, HS. pose proof (bin_search_spec (map fst al) k HO) as B. destruct (bin_search (map fst al) k) as [i found]. destruct B as (_ & _ & _ & B1 & B2). pose proof (sorted_nodup _ HO) as ND.
  destruct found.
  - specialize (B1 eq_refl). rewrite nth_error_map in *. destruct (nth_error al i) as [[k' s]|] eqn:E; [|discriminate]. cbn in *. assert (k' = k) by congruence. subst k'. f_equal. symmetry. apply assoc_in; [exact ND|]. eapply nth_error_In. exact E.
  - f_equal. symmetry. apply assoc_none. intro H. specialize (B2 H). discriminate.
Qed.
Lemma set_session_spec t al k s : good_table t al -> exists al', good_table (set_session t k s) al' /\ (forall k', assoc k' al' = if seqb k' k then (match assoc k al with Some x => Some x | None => Some s end) else assoc k' al).
Proof.
  intros (HK & HS & HO). unfold set_session. rewrite HK, HS. pose proof (bin_search_spec (map fst al) k HO) as B. destruct (bin_search (map fst al) k) as [i found]. destruct B as (B0 & B3 & B4 & B1 & B2). pose proof (sorted_nodup _ HO) as ND.
  destruct found.
  - exists al. split; [split; [exact HK|split; assumption]|]. intro k'. destruct (seqb k' k) eqn:E; [|reflexivity]. apply seqb_eq in E. subst k'. destruct (assoc k al) eqn:EA; [reflexivity|]. exfalso. apply assoc_none in EA. apply EA. eapply nth_error_In. apply B1. reflexivity.
  - assert (NI : ~ In k (map fst al)) by (intro H; specialize (B2 H); discriminate). exists (firstn i al ++ (k, s) :: skipn i al). rewrite map_length in B0.
    assert (G : good_table (mkTable (insert_at (map fst al) [] k i) (insert_at (map snd al) no_session s i)) (firstn i al ++ (k, s) :: skipn i al)).
    { unfold good_table. cbn [tb_keys tb_sessions]. rewrite !insert_at_spec by (rewrite map_length; exact B0). rewrite !map_app, !firstn_map, !skipn_map. cbn [map fst snd]. split; [reflexivity|]. split; [reflexivity|].
      rewrite <- firstn_map, <- skipn_map. apply sorted_insert; [exact HO|exact B3|]. intros j y HJ HY. pose proof (B4 j y HJ HY) as N. unfold slt in *. rewrite (scmp_antisym y k). destruct (scmp y k) eqn:E; [|congruence|reflexivity].
      exfalso. apply scmp_eq in E. subst y. apply NI. eapply nth_error_In. exact HY. }
    split; [exact G|]. intro k'. pose proof (sorted_nodup _ (proj2 (proj2 G))) as ND'.
    assert (EQ : forall x, In (k', x) (firstn i al ++ (k, s) :: skipn i al) <-> (k' = k /\ x = s) \/ In (k', x) al).
    { intro x. rewrite <- (firstn_skipn i al) at 3. rewrite !in_app_iff. cbn [In]. split; [intros [H|[H|H]]; [auto|left; split; congruence|auto]|intros [[-> ->]|[H|H]]; auto]. }
    destruct (seqb k' k) eqn:E.
    + apply seqb_eq in E. subst k'. rewrite (proj2 (assoc_none k al) NI). apply assoc_in; [exact ND'|]. apply EQ. auto.
    + destruct (assoc k' al) as [x|] eqn:EA.
      * apply assoc_in; [exact ND'|]. apply EQ. right. apply assoc_in; assumption.
      * apply assoc_none. intro H. apply in_map_iff in H as ([k2 x] & Q1 & Q2). cbn in Q1. subst k2. apply EQ in Q2. destruct Q2 as [[-> ->]|Q2]; [rewrite seqb_refl in E; discriminate|]. apply assoc_in in Q2; [congruence|exact ND].
Qed.
Lemma empty_table : good_table (mkTable [] []) [].
Proof. repeat split. constructor. Qed.

(** ** Requests and answers *)
Section Signer.
Context (c : prims) (dec_req : str -> option request) (enc_resp : response -> str).
Definition own (sk client : str) (s : session) : Prop := public_key c sk = Ok (ss_pub s) /\ p_shared c client sk = Ok (ss_shared s) /\ p_conv c client sk = Ok (ss_conv s).
Definition own_table (sk : str) (t : table) : Prop := exists al, good_table t al /\ forall k s, assoc k al = Some s -> own sk k s.
Lemma get_or_create_spec sk t client os t' : own_table sk t -> get_or_create c sk t client = (os, t') -> own_table sk t' /\ (forall s, os = Ok s -> own sk client s) /\
  ((forall s, os <> Ok s) -> (forall pk, public_key c sk <> Ok pk) \/ (forall k, p_shared c client sk <> Ok k) \/ (forall k, p_conv c client sk <> Ok k)).
Proof.
  intros (al & G & HO). unfold get_or_create. rewrite (get_session_spec t al client G). destruct (assoc client al) as [s|] eqn:EA.
  - intro H. injection H as <- <-. split; [exists al; auto|]. split; [intros s' H; apply HO; congruence|]. intro H. exfalso. apply (H s). reflexivity.
  - destruct (p_shared c client sk) as [sh| |] eqn:E1; cbn [obind]; [|intro H; injection H as <- <-; split; [exists al; auto|]; split; [discriminate|right; left; discriminate]..].
    destruct (p_conv c client sk) as [ck| |] eqn:E2; cbn [obind]; [|intro H; injection H as <- <-; split; [exists al; auto|]; split; [discriminate|right; right; discriminate]..].
    destruct (public_key c sk) as [pk| |] eqn:E3; cbn [obind]; [|intro H; injection H as <- <-; split; [exists al; auto|]; split; [discriminate|left; discriminate]..].
    intro H. assert (os = Ok (mkSession pk sh ck) /\ t' = set_session t client (mkSession pk sh ck)) as [-> ->] by (split; congruence). assert (O : own sk client (mkSession pk sh ck)) by (repeat split; assumption).
    split; [|split; [intros s H'; assert (s = mkSession pk sh ck) by congruence; subst s; exact O|intro H'; exfalso; apply (H' (mkSession pk sh ck)); reflexivity]].
    destruct (set_session_spec t al client (mkSession pk sh ck) G) as (al' & G' & A'). exists al'. split; [exact G'|]. intros k s. rewrite A'. destruct (seqb k client) eqn:EK; [|apply HO]. apply seqb_eq in EK. subst k. rewrite EA. intro Q. assert (s = mkSession pk sh ck) by congruence. subst s. exact O.
Qed.
Lemma static_handle_table st t e d : own_table (st_sk st) t -> own_table (st_sk st) (snd (static_handle c dec_req enc_resp st t e d)).
Proof.
  intro H. unfold static_handle. destruct (negb _); [exact H|]. destruct (get_or_create c (st_sk st) t (ev_pubkey e)) as [os t'] eqn:E. cbn [snd]. apply (get_or_create_spec _ _ _ _ _ H E).
Qed.
Lemma static_run_table st h : own_table (st_sk st) (static_run c dec_req enc_resp st h).
Proof.
  unfold static_run. assert (G : forall t, own_table (st_sk st) t -> own_table (st_sk st) (fold_left (fun t x => snd (static_handle c dec_req enc_resp st t (fst x) (snd x))) h t)); [|apply G; exists []; split; [apply empty_table|discriminate]].
  induction h as [|x h IH]; intros t H; [exact H|]. cbn [fold_left]. apply IH. apply static_handle_table. exact H.
Qed.
Definition reply_of (id result : str) (err : bool) : response := if err then mkResp id true [] else if negb (empty result) then mkResp id false result else no_response.
Lemma static_handle_cases st t e d req resp ev : own_table (st_sk st) t -> fst (static_handle c dec_req enc_resp st t e d) = Ok (req, resp, ev) ->
  ev_kind e = 24133%Z /\ exists s result err ct, own (st_sk st) (ev_pubkey e) s /\ parse_request c dec_req s (ev_content e) = Ok req /\ static_answer c st s req d = Ok (AAnswer result err) /\
    let refused := match st_auth st with Some f => negb err && negb (f (static_harmless req) (ev_pubkey e) (static_secret req)) | None => false end in
    resp = reply_of (rq_id req) result (err || refused) /\ encrypt44 c (enc_resp resp) (ss_conv s) (d_reply d) = Ok ct /\
    sign_with c (st_sk st) (mkEvent [] [] (d_now d) 24133 [[B "p"; ev_pubkey e]] ct []) = Ok ev.
Proof.
  intro HT. unfold static_handle. destruct (Z.eqb_spec (ev_kind e) 24133) as [HK|HK]; cbn [negb fst]; [|discriminate]. destruct (get_or_create c (st_sk st) t (ev_pubkey e)) as [os t'] eqn:E. destruct (get_or_create_spec _ _ _ _ _ HT E) as (_ & HO & _). cbn [fst].
  destruct os as [s| |]; cbn [obind]; [|discriminate..]. specialize (HO s eq_refl). destruct (parse_request c dec_req s (ev_content e)) as [r| |] eqn:E1; cbn [obind]; [|discriminate..]. destruct (static_answer c st s r d) as [a| |] eqn:E2; cbn [obind]; [|discriminate..].
  destruct a as [|result err]; [discriminate|]. set (refused := match st_auth st with Some f => _ | None => _ end). unfold make_response. fold (reply_of (rq_id r) result (err || refused)). destruct (encrypt44 c _ (ss_conv s) (d_reply d)) as [ct| |] eqn:E3; cbn [obind fst snd]; [|discriminate..].
  destruct (sign_with c (st_sk st) _) as [ev'| |] eqn:E4; cbn [obind]; [|discriminate..]. intro H. assert (r = req /\ reply_of (rq_id r) result (err || refused) = resp /\ ev' = ev) as (-> & HR & ->) by (repeat split; congruence). subst resp.
  split; [exact HK|]. exists s, result, err, ct. repeat split; try assumption; apply HO.
Qed.
End Signer.

(** ** The signer with many keys *)
Section Dynamic.
Context (c : prims) (dec_req : str -> option request) (enc_resp : response -> str) (dy : dynamic).
(** The handler an event is addressed to. *)
Definition addressed (e : event) (h : str) : Prop := exists rest, find_tag (ev_tags e) (B "p") = Some (B "p" :: h :: rest).
Lemma find_tag_shape ts k t : find_tag ts k = Some t -> exists v rest, t = k :: v :: rest.
Proof. induction ts as [|[|a [|b r]] ts IH]; cbn; try discriminate; auto. destruct (seqb a k) eqn:E; [|auto]. intro H. apply seqb_eq in E. subst a. injection H as <-. eauto. Qed.
(** A session made for the client when it spoke to handler [h]. *)
Definition made (client h : str) (s : session) : Prop := exists hs u, dy_secret dy h = Ok hs /\ dy_user dy h = Ok u /\ uk_pub u = Ok (ss_pub s) /\ p_shared c client hs = Ok (ss_shared s) /\ p_conv c client hs = Ok (ss_conv s).
Definition dyn_table (P : str -> str -> Prop) (t : table) : Prop := exists al, good_table t al /\ forall k s, assoc k al = Some s -> exists h, P k h /\ made k h s.
Lemma dynamic_handle_table (P : str -> str -> Prop) t e d : (forall h, addressed e h -> P (ev_pubkey e) h) -> dyn_table P t -> dyn_table P (snd (dynamic_handle c dec_req enc_resp dy t e d)).
Proof.
  intros HP HT. unfold dynamic_handle. destruct (negb _); [exact HT|]. destruct (find_tag (ev_tags e) (B "p")) as [tg|] eqn:ET; [|exact HT]. destruct (find_tag_shape _ _ _ ET) as (h & rest & ->). change (nth_error (B "p" :: h :: rest) 1) with (Some h). cbv iota.
  destruct (negb (valid_32byte_hex h)); [exact HT|]. destruct (dy_secret dy h) as [hs| |] eqn:E1; cbn [obind]; [|exact HT..]. destruct (dy_user dy h) as [u| |] eqn:E2; cbn [obind]; [|exact HT..].
  pose proof HT as (al & G & HO). rewrite (get_session_spec t al _ G). destruct (assoc (ev_pubkey e) al) as [s|] eqn:EA; [exact HT|].
  destruct (p_shared c (ev_pubkey e) hs) as [sh| |] eqn:E3; cbn [obind]; [|exact HT..]. destruct (p_conv c (ev_pubkey e) hs) as [ck| |] eqn:E4; cbn [obind]; [|exact HT..]. destruct (uk_pub u) as [pk| |] eqn:E5; cbn [obind snd]; [|exact HT..].
  destruct (set_session_spec t al (ev_pubkey e) (mkSession pk sh ck) G) as (al' & G' & A'). exists al'. split; [exact G'|]. intros k s. rewrite A'. destruct (seqb k (ev_pubkey e)) eqn:EK; [|apply HO]. apply seqb_eq in EK. subst k. rewrite EA. intro Q. assert (s = mkSession pk sh ck) by congruence. subst s.
  exists h. split; [apply HP; exists rest; exact ET|]. exists hs, u. auto.
Qed.
Lemma dynamic_run_table (P : str -> str -> Prop) hist : (forall e d h, In (e, d) hist -> addressed e h -> P (ev_pubkey e) h) -> dyn_table P (dynamic_run c dec_req enc_resp dy hist).
Proof.
  unfold dynamic_run. assert (G : forall t, dyn_table P t -> (forall e d h, In (e, d) hist -> addressed e h -> P (ev_pubkey e) h) -> dyn_table P (fold_left (fun t x => snd (dynamic_handle c dec_req enc_resp dy t (fst x) (snd x))) hist t)); [|intro H; apply G; [exists []; split; [apply empty_table|discriminate]|exact H]].
  induction hist as [|[e d] hist IH]; intros t H HP; [exact H|]. cbn [fold_left fst snd]. apply IH; [|intros e' d' h HI; apply (HP e' d'); right; exact HI]. apply dynamic_handle_table; [|exact H]. intro h. apply (HP e d). left. reflexivity.
Qed.
Lemma dynamic_handle_cases (P : str -> str -> Prop) t e d req resp ev : (forall h, addressed e h -> P (ev_pubkey e) h) -> dyn_table P t -> fst (dynamic_handle c dec_req enc_resp dy t e d) = Ok (req, resp, ev) ->
  ev_kind e = 24133%Z /\ exists h hs u s result err ct, addressed e h /\ valid_32byte_hex h = true /\ dy_secret dy h = Ok hs /\ dy_user dy h = Ok u /\ (exists h', P (ev_pubkey e) h' /\ made (ev_pubkey e) h' s) /\
    parse_request c dec_req s (ev_content e) = Ok req /\ dynamic_answer c dy u s (ev_pubkey e) req = Ok (AAnswer result err) /\
    resp = reply_of (rq_id req) result err /\ encrypt44 c (enc_resp resp) (ss_conv s) (d_reply d) = Ok ct /\
    sign_with c hs (mkEvent [] [] (d_now d) 24133 [[B "p"; ev_pubkey e]] ct []) = Ok ev.
Proof.
  intros HP HT. unfold dynamic_handle. destruct (Z.eqb_spec (ev_kind e) 24133) as [HK|HK]; cbn [negb fst]; [|discriminate]. destruct (find_tag (ev_tags e) (B "p")) as [tg|] eqn:ET; [|discriminate]. destruct (find_tag_shape _ _ _ ET) as (h & rest & ->). change (nth_error (B "p" :: h :: rest) 1) with (Some h). cbv iota.
  destruct (valid_32byte_hex h) eqn:EV; cbn [negb]; [|discriminate]. destruct (dy_secret dy h) as [hs| |] eqn:E1; cbn [obind]; [|discriminate..]. destruct (dy_user dy h) as [u| |] eqn:E2; cbn [obind]; [|discriminate..].
  assert (AD : addressed e h) by (exists rest; exact ET).
  match goal with |- fst (let '(os, t') := ?x in _) = _ -> _ => assert (HS : forall s, fst x = Ok s -> exists h', P (ev_pubkey e) h' /\ made (ev_pubkey e) h' s); [|destruct x as [os t']] end.
  { intro s. pose proof HT as (al & G & HO). rewrite (get_session_spec t al _ G). destruct (assoc (ev_pubkey e) al) as [s'|] eqn:EA; [cbn [fst]; intro Q; apply HO; congruence|].
    destruct (p_shared c (ev_pubkey e) hs) as [sh| |] eqn:E3; cbn [obind fst]; [|discriminate..]. destruct (p_conv c (ev_pubkey e) hs) as [ck| |] eqn:E4; cbn [obind fst]; [|discriminate..]. destruct (uk_pub u) as [pk| |] eqn:E5; cbn [obind fst]; [|discriminate..].
    intro Q. assert (s = mkSession pk sh ck) by congruence. subst s. exists h. split; [apply HP; exact AD|]. exists hs, u. auto. }
  cbn [fst] in *. destruct os as [s| |]; cbn [obind]; [|discriminate..]. specialize (HS s eq_refl). destruct (parse_request c dec_req s (ev_content e)) as [r| |] eqn:E3; cbn [obind]; [|discriminate..]. destruct (dynamic_answer c dy u s (ev_pubkey e) r) as [a| |] eqn:E4; cbn [obind]; [|discriminate..].
  destruct a as [|result err]; [discriminate|]. unfold make_response. fold (reply_of (rq_id r) result err). destruct (encrypt44 c _ (ss_conv s) (d_reply d)) as [ct| |] eqn:E5; cbn [obind fst snd]; [|discriminate..].
  destruct (sign_with c hs _) as [ev'| |] eqn:E6; cbn [obind]; [|discriminate..]. intro H. assert (r = req /\ reply_of (rq_id r) result err = resp /\ ev' = ev) as (-> & HR & ->) by (repeat split; congruence). subst resp.
  split; [exact HK|]. exists h, hs, u, s, result, err, ct. repeat (split; [eassumption || reflexivity|]). assumption.
Qed.
End Dynamic.
