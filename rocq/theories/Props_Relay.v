(** C46-C49: the reader, Publish, subscription ids and Close, over every list of actions. *)
From Verif Require Import Base JsonSpec Machine EventModel TagsModel FilterModel FilterProofs Props_Filter JLexModel JLexProofs JsonEventProofs Props_Json
  EnvelopeModel EnvelopeProofs ScanProofs Props_Envelope RelayModel RelayProofs.
Import ListNotations.

(** ** C46 *)
(** [nip01_match] is the specification of matching in Props_Filter. *)
Definition without_times (f : nfilter) : nfilter :=
  mkFilter (f_ids f) (f_kinds f) (f_authors f) (f_tags f) None None (f_limit f) (f_search f) (f_limit_zero f).

(** Whatever the relay sends and whenever subscriptions come and go: an event given to subscription [n] was carried by an EVENT
    message for [n] that arrived while a subscription with that number was open; it matches one of its filters, after the EOSE
    up to since and until; and its signature check succeeded unless checking was switched off. *)
Theorem C46_only_valid_matching check assume_valid D (dup : str -> D -> bool * D) d acts s n e :
  exec (reader_step check assume_valid dup) acts (reader_init d) = Some s -> In (n, e) (rd_out s) ->
  exists before msg after sub id x since_added,
    acts = before ++ RMsg msg :: after /\
    parse_message msg = Ok (EEvent sub e) /\ extract_sub_id msg = Ok id /\ sub_id_to_serial id = n /\
    open_in before x since_added /\ r_serial x = n /\
    (exists f, In f (r_filters x) /\ (nip01_match f e \/ eose_in n since_added /\ nip01_match (without_times f) e)) /\
    (assume_valid = false -> check e = Ok true).
Proof.
  intros H HI. destruct (reader_inv check assume_valid dup d acts s H) as [_ I2].
  destruct (I2 n e HI) as (b & m & af & sub & id & x & sa & H1 & H2 & H3 & H4 & H5 & H6 & H7 & H8).
  exists b, m, af, sub, id, x, sa. repeat (split; [first [assumption|apply H5]|]). split; [|exact H8].
  destruct H7 as [H7|[HE H7]].
  - apply filters_match_spec in H7 as (f & F1 & F2). exists f. split; [exact F1|]. left. apply C07_matches_iff_nip01, F2.
  - apply filters_match_ignoring_time_spec in H7 as (f & F1 & F2). exists f. split; [exact F1|]. right. split; [exact HE|].
    apply C07_matches_ignoring_time in F2. exact F2.
Qed.

(** Before the EOSE it matches in every respect. *)
Corollary C46_matches_partial check assume_valid D (dup : str -> D -> bool * D) d acts s n e :
  exec (reader_step check assume_valid dup) acts (reader_init d) = Some s -> In (n, e) (rd_out s) -> ~ eose_in n acts ->
  exists x f, In (RAdd x) acts /\ r_serial x = n /\ In f (r_filters x) /\ nip01_match f e.
Proof.
  intros H HI NE. destruct (C46_only_valid_matching _ _ _ _ _ _ _ _ _ H HI) as (b & m & af & sub & id & x & sa & H1 & H2 & H3 & H4 & H5 & H6 & (f & F1 & F2) & H8).
  exists x, f. destruct H5 as [[b0 ->] _]. split; [|split; [exact H6|split; [exact F1|]]].
  - rewrite H1. apply in_or_app. left. apply in_or_app. right. left. reflexivity.
  - destruct F2 as [F2|[(m' & id' & Q1 & Q2) _]]; [exact F2|]. exfalso. apply NE. exists m', id'. split; [|exact Q2].
    rewrite H1. apply in_or_app. left. apply in_or_app. right. right. exact Q1.
Qed.

(** Messages for subscriptions that are not open deliver nothing. *)
Theorem C46_unknown_dropped check assume_valid D (dup : str -> D -> bool * D) msg id (s : reader D) :
  extract_sub_id msg = Ok id -> (forall x, In x (rd_subs s) -> r_serial x <> sub_id_to_serial id) ->
  rd_out (read_message check assume_valid dup msg s) = rd_out s.
Proof.
  intros E N. destruct (read_effect check assume_valid dup msg s) as [(id' & E' & _ & [H|(sub & e & x & _ & F & _)])|[_ H]]; try exact H.
  exfalso. rewrite E in E'. injection E' as <-. apply find_sub_in in F as [F1 F2]. apply (N x F1 F2).
Qed.

(** And a valid matching event for an open subscription is delivered. *)
Theorem C46_delivered check assume_valid D (dup : str -> D -> bool * D) (s : reader D) k label e x :
  no_quote label = true -> text_event e -> (0 <= k <= max_int64)%Z -> find_sub k (rd_subs s) = Some x -> r_dups x = false ->
  (exists f, In f (r_filters x) /\ nip01_match f e) -> check e = Ok true ->
  exists t, marshal (EEvent (Some (sub_id k label)) e) = Ok t /\ rd_out (read_message check assume_valid dup t s) = (k, e) :: rd_out s.
Proof.
  intros NL TE K F D0 (f & F1 & F2) C.
  assert (NQ : no_quote (sub_id k label) = true).
  { unfold sub_id. change (":"%char :: label) with ([":"%char] ++ label). unfold no_quote in *.
    assert (G : forallb (fun c => negb (ceqb c quote) && negb (ceqb c bslash)) (dec_Z k) = true).
    { destruct (dec_Z_shape k) as (c & t & -> & S1 & S2). cbn [forallb].
      assert (G : forall c, (if is_digit c || ceqb c "-"%char then negb (ceqb c quote) && negb (ceqb c bslash) else true) = true) by (apply bytes_forallb; vm_compute; reflexivity).
      apply andb_true_iff. split; [specialize (G c); rewrite S1 in G; exact G|]. rewrite forallb_forall in *. intros y Hy. specialize (G y). rewrite (S2 y Hy) in G. exact G. }
    rewrite !forallb_app. apply andb_true_iff. split; [exact G|]. rewrite NL. reflexivity. }
  exists (event_msg (sub_id k label) e). split; [apply event_msg_marshal|].
  destruct (C19_message_round_trip (EEvent (Some (sub_id k label)) e)) as (t' & M' & P); [split; assumption|exact I|].
  rewrite event_msg_marshal in M'. injection M' as <-.
  unfold read_message. rewrite (scan_sub _ _ NQ). cbv zeta. rewrite sub_id_serial by (unfold min_int64 in *; lia). rewrite F, D0.
  unfold handle. rewrite P.
  assert (SM : sub_match x e = true).
  { apply C07_matches_iff_nip01 in F2. unfold sub_match. destruct (r_eosed x).
    - apply filters_match_ignoring_time_spec. exists f. split; [exact F1|]. apply C07_matches_ignoring_time.
      apply C07_matches_iff_nip01 in F2. unfold nip01_match in *. cbn. tauto.
    - apply filters_match_spec. exists f. auto. }
  rewrite SM, C. cbn [negb]. rewrite andb_false_r. cbn [rd_out]. apply find_sub_in in F as [_ ->]. reflexivity.
Qed.

Definition no_dup (_ : str) (d : unit) : bool * unit := (false, d).
Definition demo_filter (since : option Z) : nfilter := mkFilter None (Some [1%Z]) None [] since None 0 [] false.
Definition demo_sub (since : option Z) : rsub := mkR 3 [demo_filter since] false false false.
Definition demo_text (t : string) : str :=
  B "[""EVENT"",""3:lbl"",{""kind"":1,""id"":""ab"",""pubkey"":""cd"",""created_at"":" ++ B t ++ B ",""tags"":[],""content"":""hi"",""sig"":""ef""}]".
Definition demo_acts (since : option Z) : list raction := [RMsg (demo_text "150"); RAdd (demo_sub since); RMsg (demo_text "150"); RDelete 3; RMsg (demo_text "151")].
Example C46_demo : exists s, exec (reader_step (fun _ => Ok true) false no_dup) (demo_acts (Some 100%Z)) (reader_init tt) = Some s /\ rd_crashed s = false /\
  map (fun p => (fst p, ev_created_at (snd p))) (rd_out s) = [(3, 150)]%Z.
Proof. eexists. split; [vm_compute; reflexivity|]. split; vm_compute; reflexivity. Qed.

(** After the EOSE an event outside the filter's time window is delivered. *)
Theorem C46_time_bounds_refuted : exists acts (s : reader unit) n e, exec (reader_step (fun _ => Ok true) false no_dup) acts (reader_init tt) = Some s /\
  In (n, e) (rd_out s) /\ (forall x, In (RAdd x) acts -> forall f, In f (r_filters x) -> ~ nip01_match f e).
Proof.
  exists [RAdd (demo_sub (Some 100%Z)); RMsg (B "[""EOSE"",""3:""]"); RMsg (demo_text "50")].
  eexists. exists 3%Z. eexists. split; [vm_compute; reflexivity|]. split; [left; reflexivity|].
  intros x HX f HF. cbn in HX. destruct HX as [HX|[HX|[HX|[]]]]; try discriminate. injection HX as <-. cbn in HF. destruct HF as [<-|[]].
  intros (_ & _ & _ & _ & T & _). vm_compute in T. apply T. reflexivity.
Qed.
(** One message stops the whole program. *)
Theorem C46_crash_refuted : forall check assume_valid D (dup : str -> D -> bool * D) s, rd_crashed (read_message check assume_valid dup (B "[""EVENT"",""") s) = true.
Proof. reflexivity. Qed.

(** CheckSignature recomputes the hash and never looks at the id, so a relay may deliver any signed event under any id: the
    receiver sees an event whose id is not the hash of its contents. *)
Definition with_id (e : event) (id : str) : event := mkEvent id (ev_pubkey e) (ev_created_at e) (ev_kind e) (ev_tags e) (ev_content e) (ev_sig e).
Theorem C46_forged_id_refuted sha256 PK SG (parse_pubkey : str -> option PK) (parse_sig : str -> option SG) verify e forged :
  let check := check_signature sha256 PK SG parse_pubkey parse_sig verify in
  check e = Ok true -> text_event e -> utf8_text forged ->
  exists acts (s : reader unit) n, exec (reader_step check false no_dup) acts (reader_init tt) = Some s /\ In (n, with_id e forged) (rd_out s).
Proof.
  intros check C TE UF.
  assert (TE' : text_event (with_id e forged)). { destruct TE as (T1 & T2 & T3 & T4 & T5 & T6 & T7). repeat split; cbn; assumption || apply T6 || apply T7. }
  set (x := mkR 1 [zero_filter] false false false).
  destruct (C46_delivered check false unit no_dup (mkReader [x] tt [] [] [] [] false) 1 [] (with_id e forged) x) as (t & M & R); try reflexivity; try assumption.
  - unfold max_int64. lia.
  - exists zero_filter. split; [left; reflexivity|]. unfold nip01_match, zero_filter. cbn. repeat split; auto. intros ? ? [].
  - exists [RAdd x; RMsg t], (read_message check false no_dup t (mkReader [x] tt [] [] [] [] false)), 1%Z.
    split; [reflexivity|]. rewrite R. left. reflexivity.
Qed.

(** A subscription that checks for duplicates remembers the id before anything is checked: a relay that sends a worthless event
    with the id of a good one keeps the good one from being delivered. *)
Definition seen_dup (id : str) (d : list str) : bool * list str := (existsb (seqb id) d, id :: d).
Definition id64 : string := "0123456789abcdef0123456789abcdef0123456789abcdef0123456789abcdef".
Definition full_text (kind : string) : str :=
  B "[""EVENT"",""3:"",{""kind"":" ++ B kind ++ B ",""id"":""" ++ B id64 ++ B """,""pubkey"":""cd"",""created_at"":150,""tags"":[],""content"":""hi"",""sig"":""ef""}]".
Theorem C46_shadowed_refuted : exists (x : rsub) (good bad : str) (s1 s2 : reader (list str)) e,
  exec (reader_step (fun _ => Ok true) false seen_dup) [RAdd x; RMsg good] (reader_init []) = Some s1 /\ In (3%Z, e) (rd_out s1) /\
  exec (reader_step (fun _ => Ok true) false seen_dup) [RAdd x; RMsg bad; RMsg good] (reader_init []) = Some s2 /\ rd_out s2 = [] /\ rd_crashed s2 = false.
Proof.
  exists (mkR 3 [demo_filter None] false true false), (full_text "1"), (full_text "2").
  eexists. eexists. eexists. split; [vm_compute; reflexivity|]. split; [left; reflexivity|]. split; [vm_compute; reflexivity|]. split; reflexivity.
Qed.

(** ** C47 *)
Definition phistory (s : pstate) : list pobs := rev (ps_log s).
Lemma in_rev2 {X} (h : list X) o : In o (rev h) <-> In o h. Proof. symmetry. apply in_rev. Qed.
Lemma pub_order s h1 o h2 : pub_reachable s -> phistory s = h1 ++ o :: h2 -> ok_pobs o (rev h1).
Proof. intros R H. apply (in_order_rev ok_pobs (ps_log s) h1 o h2); [apply (pi_order s (pub_inv s R))|exact H]. Qed.

(** Success means that the relay answered true for this publish and for the event it published, provided the connection was not
    lost and the publish's own context did not end before it returned. *)
Theorem C47_success_means_accepted_partial s h1 i h2 : pub_reachable s -> phistory s = h1 ++ NReturn i POk :: h2 ->
  ~ In NLost h1 -> ~ In (NExpire i) h1 -> exists id r, In (NStart i id) h1 /\ In (NAnswer i id true r) h1.
Proof.
  intros R H NL NE. pose proof (pub_order _ _ _ _ R H) as [O _]. cbn in O. rewrite !in_rev2 in O.
  destruct O as [(id & r & Q1 & Q2)|[Q|Q]]; try contradiction. rewrite in_rev2 in Q1, Q2. eauto.
Qed.
(** A rejection comes with the relay's reason for this event, a context error only from an ended context. *)
Theorem C47_rejection s h1 i r h2 : pub_reachable s -> phistory s = h1 ++ NReturn i (PRejected r) :: h2 ->
  exists id, In (NStart i id) h1 /\ In (NAnswer i id false r) h1.
Proof. intros R H. pose proof (pub_order _ _ _ _ R H) as [(id & Q1 & Q2) _]. rewrite in_rev2 in Q1, Q2. eauto. Qed.
Theorem C47_expired s h1 i h2 : pub_reachable s -> phistory s = h1 ++ NReturn i PCtx :: h2 -> In (NExpire i) h1.
Proof. intros R H. pose proof (pub_order _ _ _ _ R H) as [Q _]. cbn in Q. rewrite in_rev2 in Q. exact Q. Qed.
(** Answers only reach a publish of the event they name; a publish has one event and returns once. *)
Theorem C47_answer_for_own_event s h1 i id ok r h2 : pub_reachable s -> phistory s = h1 ++ NAnswer i id ok r :: h2 ->
  In (NStart i id) h1 /\ (forall id', In (NStart i id') (phistory s) -> id' = id).
Proof.
  intros R H. pose proof (pub_order _ _ _ _ R H) as Q. cbn in Q. split; [rewrite in_rev2 in Q; exact Q|].
  intros id' Q'. unfold phistory in Q'. rewrite in_rev2 in Q'. pose proof (pi_start s (pub_inv s R)) as ST.
  assert (Q2 : In (NStart i id) (ps_log s)). { rewrite <- in_rev2. fold (phistory s). rewrite H. apply in_or_app. left. rewrite in_rev2 in Q. exact Q. }
  apply ST in Q' as (p & N1 & E1 & _). apply ST in Q2 as (p2 & N2 & E2 & _). congruence.
Qed.
Theorem C47_returns_once s h1 i r h2 : pub_reachable s -> phistory s = h1 ++ NReturn i r :: h2 -> forall r', ~ In (NReturn i r') h1 /\ ~ In (NReturn i r') h2.
Proof.
  intros R H r'. pose proof (pub_order _ _ _ _ R H) as [_ Q]. split; [rewrite <- in_rev2; apply Q|].
  intro Q2. apply in_split in Q2 as (g1 & g2 & ->).
  replace (h1 ++ NReturn i r :: g1 ++ NReturn i r' :: g2) with ((h1 ++ NReturn i r :: g1) ++ NReturn i r' :: g2) in H by (rewrite <- app_assoc; reflexivity).
  pose proof (pub_order _ _ _ _ R H) as [_ Q3]. apply (Q3 r). rewrite in_rev2. apply in_or_app. right. left. reflexivity.
Qed.

(** Two publishes answered in the other order, one rejected. *)
Definition publish_demo : list paction :=
  [BNew (B "a"); BNew (B "b"); BStep 0 false; BStep 1 false; BStep 0 false; BStep 1 false;
   BOk (B "b") false (B "no"); BCallback; BCallback; BCallback; BOk (B "x") true []; BOk (B "a") true []; BCallback; BCallback; BCallback;
   BStep 1 false; BStep 0 false; BStep 0 false; BStep 1 false].
Example C47_demo : exists s, exec publish_step publish_demo publish_init = Some s /\
  phistory s = [NStart 0 (B "a"); NStart 1 (B "b"); NAnswer 1 (B "b") false (B "no"); NAnswer 0 (B "a") true []; NReturn 0 POk; NReturn 1 (PRejected (B "no"))].
Proof. eexists. split; [vm_compute; reflexivity|reflexivity]. Qed.

(** A lost connection is reported as success. *)
Theorem C47_lost_refuted : exists l s, exec publish_step l publish_init = Some s /\
  In (NReturn 0 POk) (phistory s) /\ (forall i id ok r, ~ In (NAnswer i id ok r) (phistory s)).
Proof.
  exists [BNew (B "a"); BStep 0 false; BStep 0 false; BLost; BStep 0 true; BStep 0 true]. eexists. split; [vm_compute; reflexivity|].
  split; [cbn; auto|]. cbn. intuition discriminate.
Qed.
(** The context ends while the callback of a rejection is running: gotOk is set, the error not yet. Success is reported. *)
Theorem C47_race_refuted : exists l s r, exec publish_step l publish_init = Some s /\
  In (NReturn 0 POk) (phistory s) /\ In (NAnswer 0 (B "a") false r) (phistory s) /\ ~ In NLost (phistory s) /\ (forall r, ~ In (NAnswer 0 (B "a") true r) (phistory s)).
Proof.
  exists [BNew (B "a"); BStep 0 false; BStep 0 false; BOk (B "a") false (B "blocked"); BCallback; BExpire 0; BStep 0 false; BStep 0 false].
  eexists. eexists. split; [vm_compute; reflexivity|]. cbn. repeat split; auto; intuition discriminate.
Qed.
(** Two publishes of one event share a callback slot: the first one never hears of its acceptance and times out. *)
Theorem C47_same_event_refuted : exists l s, exec publish_step l publish_init = Some s /\
  In (NStart 0 (B "a")) (phistory s) /\ (exists i, In (NAnswer i (B "a") true []) (phistory s)) /\
  In (NReturn 0 PCtx) (phistory s) /\ In (NReturn 1 POk) (phistory s).
Proof.
  exists [BNew (B "a"); BNew (B "a"); BStep 0 false; BStep 0 false; BStep 1 false; BStep 1 false; BOk (B "a") true []; BCallback; BCallback; BCallback;
          BStep 1 false; BStep 1 false; BOk (B "a") true []; BExpire 0; BStep 0 false; BStep 0 false].
  eexists. split; [vm_compute; reflexivity|]. cbn. repeat split; auto 10. exists 1. auto 10.
Qed.

(** ** C48 *)
Lemma parse_int_unfold s : parse_int s = match s with
  | c :: r => if ceqb c "-"%char then match parse_digits r with None => None | Some n => if ((min_int64 <=? - Z.of_N n) && (- Z.of_N n <=? max_int64))%Z then Some (- Z.of_N n)%Z else None end
              else match parse_digits (if ceqb c "+"%char then r else s) with None => None | Some n => if ((min_int64 <=? Z.of_N n) && (Z.of_N n <=? max_int64))%Z then Some (Z.of_N n) else None end
  | [] => None end.
Proof. destruct s as [|[[] [] [] [] [] [] [] []] r]; reflexivity. Qed.
Theorem C48_routed_back k label : (0 <= k <= max_int64)%Z -> sub_id_to_serial (sub_id k label) = k.
Proof. intro H. apply sub_id_serial. unfold min_int64. lia. Qed.
(** The [k]th call gets number k+1 whatever the labels, and no two ids are the same. *)
Theorem C48_ids_distinct labels : NoDup (snd (prepare_all labels)) /\ length (snd (prepare_all labels)) = length labels /\
  (forall id, In id (snd (prepare_all labels)) <-> exists k l, nth_error labels k = Some l /\ id = sub_id (Z.of_nat (S k)) l).
Proof. destruct (prepare_all_spec labels) as (_ & H1 & H2 & H3). auto. Qed.
Theorem C48_id_injective k l k' l' : sub_id k l = sub_id k' l' -> k = k' /\ l = l'.
Proof. apply sub_id_inj. Qed.
(** What the relay sends back may carry any number: one that does not fit is cut to the nearest that does; before the colon stands something
    that is no number: 0; no colon: -1. Numbers given out start with 1, so the last two belong to no subscription. *)
Theorem C48_serial_clamped k label : sub_id_to_serial (sub_id k label) = Z.max (-9223372036854775808) (Z.min 9223372036854775807 k).
Proof.
  destruct (Z_le_gt_dec min_int64 k) as [L1|G1]; [destruct (Z_le_gt_dec k max_int64) as [L2|G2]|].
  - rewrite sub_id_serial by lia. unfold min_int64, max_int64 in *. lia.
  - unfold sub_id_to_serial, sub_id. rewrite cut_colon_app by apply dec_Z_no_colon. unfold parse_int_value.
    assert (E : dec_Z k = dec_N (Z.to_N k)) by (destruct k; [reflexivity|reflexivity|unfold max_int64 in *; lia]). pose proof (parse_digits_dec_N (Z.to_N k)) as P. rewrite <- E in P. destruct (dec_Z k) as [|c r] eqn:Q; [discriminate|].
    assert (D : is_digit c = true) by (unfold parse_digits in P; destruct (forallb is_digit (c :: r)) eqn:D; [|discriminate]; cbn [forallb] in D; apply andb_prop in D; apply D).
    assert (N1 : ceqb c "-"%char = false) by (unfold ceqb; destruct (Ascii.eqb_spec c "-"%char) as [->|]; [discriminate|reflexivity]). assert (N2 : ceqb c "+"%char = false) by (unfold ceqb; destruct (Ascii.eqb_spec c "+"%char) as [->|]; [discriminate|reflexivity]).
    assert (M : parse_int (c :: r) = None).
    { rewrite parse_int_unfold. rewrite N1, N2, P. unfold min_int64, max_int64 in *. rewrite Z2N.id by lia. replace (k <=? 9223372036854775807)%Z with false by lia. rewrite andb_false_r. reflexivity. }
    rewrite M, N1, N2, P. unfold max_int64 in *. lia.
  - unfold sub_id_to_serial, sub_id. rewrite cut_colon_app by apply dec_Z_no_colon. unfold parse_int_value. destruct k as [|k|k]; [unfold min_int64 in *; lia|unfold min_int64 in *; lia|].
    change (dec_Z (Z.neg k)) with ("-"%char :: dec_N (Npos k)). assert (M : parse_int ("-"%char :: dec_N (Npos k)) = None).
    { rewrite parse_int_unfold, parse_digits_dec_N. cbn [ceqb Ascii.eqb Bool.eqb]. change (- Z.of_N (Npos k))%Z with (Z.neg k). unfold min_int64, max_int64 in *. replace (-9223372036854775808 <=? Z.neg k)%Z with false by lia. reflexivity. }
    rewrite M, parse_digits_dec_N. change (ceqb "-"%char "-"%char) with true. unfold min_int64 in *. lia.
Qed.
Theorem C48_serial_other id : (~ In ":"%char id -> sub_id_to_serial id = (-1)%Z) /\
  (forall a label, id = a ++ ":"%char :: label -> ~ In ":"%char a ->
     ~ (exists sign digits, a = sign ++ digits /\ (sign = [] \/ sign = B "+" \/ sign = B "-") /\ digits <> [] /\ Forall (fun c => is_digit c = true) digits) -> sub_id_to_serial id = 0%Z).
Proof.
  split.
  - intro H. unfold sub_id_to_serial. replace (cut_colon id) with (@None str); [reflexivity|]. symmetry. induction id as [|c r IH]; [reflexivity|]. cbn [cut_colon]. destruct (ceqb c ":"%char) eqn:E.
    + exfalso. apply H. left. apply Ascii.eqb_eq. exact E.
    + rewrite IH; [reflexivity|]. intro Q. apply H. right. exact Q.
  - intros a label -> NC NN. unfold sub_id_to_serial. rewrite cut_colon_app; [|apply forallb_forall; intros c Hc; destruct (ceqb c ":"%char) eqn:E; [|reflexivity]; apply Ascii.eqb_eq in E; subst; contradiction].
    assert (PD : forall sign d, a = sign ++ d -> (sign = [] \/ sign = B "+" \/ sign = B "-") -> parse_digits d = None).
    { intros sign d E SG. destruct (parse_digits d) eqn:P; [|reflexivity]. exfalso. apply NN. exists sign, d. split; [exact E|]. split; [exact SG|]. unfold parse_digits in P. destruct d as [|x d]; [discriminate|]. split; [discriminate|]. destruct (forallb is_digit (x :: d)) eqn:F; [|discriminate]. apply Forall_forall. apply forallb_forall. exact F. }
    assert (P0 : parse_digits a = None) by (apply (PD []); auto). unfold parse_int_value. rewrite parse_int_unfold. destruct a as [|c r]; [reflexivity|].
    destruct (ceqb c "-"%char) eqn:E1; [|destruct (ceqb c "+"%char) eqn:E2].
    + apply Ascii.eqb_eq in E1. subst c. rewrite (PD (B "-") r) by (auto; reflexivity). reflexivity.
    + apply Ascii.eqb_eq in E2. subst c. rewrite (PD (B "+") r) by (auto; reflexivity). reflexivity.
    + rewrite P0. reflexivity.
Qed.
Example C48_serial_demo : map sub_id_to_serial [B "99999999999999999999:x"; B "-99999999999999999999:x"; B "7"; B "x1:"; B ":"; B "+3:y"; B "-:"; B "12-:"] = [max_int64; min_int64; -1; 0; 0; 3; 0; 0]%Z.
Proof. vm_compute. reflexivity. Qed.
Example C48_demo : snd (prepare_all [B "a:b"; []; B "a:b"; B "1:"]) = [B "4:1:"; B "3:a:b"; B "2:"; B "1:a:b"] /\
  map sub_id_to_serial (snd (prepare_all [B "a:b"; []; B "a:b"; B "1:"])) = [4; 3; 2; 1]%Z.
Proof. split; vm_compute; reflexivity. Qed.

(** ** C49 *)
Lemma cnt_le {X} (f g : X -> bool) l : (forall x, f x = true -> g x = true) -> cnt f l <= cnt g l.
Proof. intro H. induction l as [|x l IH]; cbn [cnt]; [lia|]. specialize (H x). destruct (f x); [rewrite H by reflexivity|]; lia. Qed.
Lemma cnt_one {X} (f : X -> bool) l i j x y : cnt f l <= 1 -> nth_error l i = Some x -> nth_error l j = Some y -> f x = true -> f y = true -> i = j.
Proof.
  revert i j. induction l as [|z l IH]; intros i j C Hi Hj Fx Fy; [destruct i; discriminate|]. cbn [cnt] in C.
  destruct i as [|i], j as [|j]; cbn [nth_error] in *; auto.
  - injection Hi as ->. rewrite Fx in C. pose proof (cnt_pos f l j y Hj Fy). lia.
  - injection Hj as ->. rewrite Fy in C. pose proof (cnt_pos f l i x Hi Fx). lia.
  - f_equal. apply (IH i j); auto. lia.
Qed.

(** Connection.Close is called at most once, and of all the calls of Close at most one does anything: the others report that the
    relay is closed already. *)
Theorem C49_closed_once s : close_reachable s -> cs_closes s <= 1.
Proof.
  intro R. pose proof (close_inv s R) as I. rewrite (ci_closes s I). pose proof (ci_won s I) as W.
  pose proof (cnt_le did_close won (cs_closers s)) as L. destruct (cs_cancel s); rewrite W in L; (etransitivity; [apply L|lia]);
    intros []; cbn; try discriminate; auto; destruct r; auto.
Qed.
(** Until someone closes the relay, the reader fails or the context given to it ends, the connection stays: nothing is closed, the writer runs and no subscription ends. *)
Theorem C49_stays_open l s : exec close_step l close_init = Some s -> Forall (fun a => a <> ZClose /\ a <> ZParent) l ->
  cs_done s = false /\ cs_conn s = true /\ cs_closes s = 0 /\ cs_writer s = WRun /\ cs_panic s = false /\ Forall (fun v => v = VPrepared \/ v = VFiring \/ v = VFired) (cs_subs s).
Proof.
  intros H F.
  assert (Q : cs_closers s = [] /\ cs_done s = false /\ cs_conn s = true /\ cs_closes s = 0 /\ cs_writer s = WRun /\ cs_panic s = false /\ Forall (fun v => v = VPrepared \/ v = VFiring \/ v = VFired) (cs_subs s)); [|apply Q].
  revert l s F H. apply (invariant_on close_step); [cbn; repeat split; constructor|]. clear. intros a s s' [N1 N2] (I1 & I2 & I3 & I4 & I5 & I6 & I7) H. destruct a as [| |i| | |j lost]; try congruence; unfold close_step in H; rewrite I6 in H.
  - rewrite I1 in H. destruct i; discriminate.
  - unfold writer_step in H. rewrite I5, I2 in H. discriminate.
  - assert (s' = set_writer s (cs_writer s) (cs_conn s) (cs_subs s ++ [VPrepared])) by congruence. subst s'. cbn. repeat split; auto. apply Forall_app. auto.
  - destruct (nth_error (cs_subs s) j) as [v|] eqn:EN; [|discriminate].
    assert (U : forall w, w = VPrepared \/ w = VFiring \/ w = VFired -> Forall (fun v => v = VPrepared \/ v = VFiring \/ v = VFired) (upd (cs_subs s) j w)).
    { intros w Hw. apply Forall_forall. intros x Hx. apply In_nth_error in Hx as [k Hk]. apply nth_upd in Hk as [[_ ->]|[_ Hk]]; [exact Hw|]. rewrite Forall_forall in I7. apply I7. eapply nth_error_In; eassumption. }
    destruct v; cbn [vsub_step] in H; try discriminate.
    + injection H as <-. rewrite I3. cbn. repeat split; auto.
    + rewrite I2, I5 in H. destruct lost; [discriminate|]. injection H as <-. cbn. repeat split; auto.
Qed.
Theorem C49_one_caller_wins s i j r r' : close_reachable s -> nth_error (cs_closers s) i = Some (XEnd r) -> nth_error (cs_closers s) j = Some (XEnd r') ->
  r <> CAlready -> r' <> CAlready -> i = j.
Proof.
  intros R H1 H2 N1 N2. pose proof (ci_won s (close_inv s R)) as W.
  apply (cnt_one won (cs_closers s) i j (XEnd r) (XEnd r')); auto; [destruct (cs_cancel s); lia|destruct r; cbn; congruence|destruct r'; cbn; congruence].
Qed.
Lemma ended_stays a s s' i r : close_step a s = Some s' -> nth_error (cs_closers s) i = Some (XEnd r) -> nth_error (cs_closers s') i = Some (XEnd r).
Proof.
  intros E HI. unfold close_step in E. destruct (cs_panic s); [discriminate|]. destruct a as [| |k| | |k lost]; try (injection E as <-; cbn; try apply nth_snoc_old; exact HI).
  - destruct (nth_error (cs_closers s) k) as [p|] eqn:NK; [|discriminate]. destruct (Nat.eq_dec k i) as [->|NE].
    + rewrite HI in NK. injection NK as <-. discriminate.
    + unfold closer_step in E. cbv zeta in E. destruct p; repeat match type of E with (if ?b then _ else _) = _ => destruct b | match ?b with Some _ => _ | None => _ end = _ => destruct b end;
      try discriminate; injection E as <-; cbn [cs_closers]; rewrite nth_upd_other by exact NE; exact HI.
  - unfold writer_step in E. destruct (cs_writer s); repeat match type of E with (if ?b then _ else _) = _ => destruct b | match ?b with Some _ => _ | None => _ end = _ => destruct b end;
      try discriminate; injection E as <-; exact HI.
  - destruct (nth_error (cs_subs s) k) as [v|]; [|discriminate]. unfold vsub_step in E. destruct v; try discriminate;
      repeat match type of E with (if ?b then _ else _) = _ => destruct b | match ?b with WRun => _ | _ => _ end = _ => destruct b end; try discriminate; injection E as <-; exact HI.
Qed.
(** Once a call has returned, whatever its result, every call that returns later reports an error: a call that has not returned
    yet at [s] can only return CAlready. *)
Lemma already_off a s s' : ((forall j, nth_error (cs_closers s) j = Some (XUnlock CAlready) \/ nth_error (cs_closers s) j = Some (XEnd CAlready) -> cs_cancel s = false)) ->
  close_step a s = Some s' -> (forall j, nth_error (cs_closers s') j = Some (XUnlock CAlready) \/ nth_error (cs_closers s') j = Some (XEnd CAlready) -> cs_cancel s' = false).
Proof.
  intros I E j. unfold close_step in E. destruct (cs_panic s); [discriminate|]. destruct a as [| |k| | |k lost].
  - injection E as <-. cbn [cs_closers cs_cancel]. intros [H|H]; apply nth_snoc in H as [H|[_ H]]; try discriminate; eauto.
  - injection E as <-. apply I.
  - destruct (nth_error (cs_closers s) k) as [p|] eqn:NK; [|discriminate].
    unfold closer_step in E. cbv zeta in E. destruct p; repeat match type of E with (if ?b then _ else _) = _ => destruct b | match ?b with Some _ => _ | None => _ end = _ => destruct b end;
      try discriminate; injection E as <-; cbn [cs_closers cs_cancel]; auto; (intros [H|H]; apply nth_upd in H as [[<- H]|[_ H]]; try discriminate H; eauto);
      try (destruct (cs_cancel s); [discriminate H|reflexivity]); try (destruct (cs_conn s); discriminate H).
    injection H as <-. eauto.
  - unfold writer_step in E. destruct (cs_writer s); repeat match type of E with (if ?b then _ else _) = _ => destruct b | match ?b with Some _ => _ | None => _ end = _ => destruct b end;
      try discriminate; injection E as <-; apply I.
  - injection E as <-. apply I.
  - destruct (nth_error (cs_subs s) k) as [v|]; [|discriminate]. unfold vsub_step in E. destruct v; try discriminate;
      repeat match type of E with (if ?b then _ else _) = _ => destruct b | match ?b with WRun => _ | _ => _ end = _ => destruct b end; try discriminate; injection E as <-; apply I.
Qed.
Lemma already_inv s j : close_reachable s -> nth_error (cs_closers s) j = Some (XUnlock CAlready) \/ nth_error (cs_closers s) j = Some (XEnd CAlready) -> cs_cancel s = false.
Proof.
  intro R. revert j. apply (invariant close_step (fun s => forall j, nth_error (cs_closers s) j = Some (XUnlock CAlready) \/ nth_error (cs_closers s) j = Some (XEnd CAlready) -> cs_cancel s = false) close_init); [|apply already_off|exact R].
  intros j [H|H]; destruct j; discriminate.
Qed.
(** A call of Close made after another one has returned reports an error. *)
Theorem C49_later_calls_fail s i r l s' j r' : close_reachable s -> nth_error (cs_closers s) i = Some (XEnd r) -> length (cs_closers s) <= j ->
  exec close_step l s = Some s' -> nth_error (cs_closers s') j = Some (XEnd r') -> r' = CAlready.
Proof.
  intros R HI LJ H HN.
  assert (ST : forall l s s1, exec close_step l s = Some s1 -> forall i r, nth_error (cs_closers s) i = Some (XEnd r) -> nth_error (cs_closers s1) i = Some (XEnd r)).
  { clear. induction l as [|a l IH]; intros s s1 H i r HI; cbn [exec] in H; [injection H as <-; exact HI|].
    destruct (close_step a s) as [s2|] eqn:E; [|discriminate]. eapply IH; [exact H|]. eapply ended_stays; eassumption. }
  assert (R' : close_reachable s'). { destruct R as [l0 R]. exists (l0 ++ l). rewrite exec_app, R. exact H. }
  assert (W : cs_cancel s = false -> exists k q, nth_error (cs_closers s) k = Some q /\ won q = true).
  { intro C. pose proof (ci_won s (close_inv s R)) as W. rewrite C in W. clear - W. revert W. generalize (cs_closers s). intro cl.
    induction cl as [|x cl IH]; cbn [cnt]; [discriminate|]. intro W. destruct (won x) eqn:Q; [exists 0, x; auto|]. destruct (IH W) as (k & q & K1 & K2). exists (S k), q. auto. }
  destruct (cs_cancel s) eqn:C.
  { exfalso. pose proof (ci_won s (close_inv s R)) as Z. rewrite C in Z. destruct r.
    - pose proof (cnt_pos won _ _ _ HI eq_refl). lia.
    - pose proof (already_inv s i R (or_intror HI)). congruence.
    - pose proof (cnt_pos won _ _ _ HI eq_refl). lia. }
  destruct (W eq_refl) as (k & q & K1 & K2).
  (* the winner of s still counts in s' *)
  assert (KEEP : forall l s s1, exec close_step l s = Some s1 -> forall k q, nth_error (cs_closers s) k = Some q -> won q = true -> exists q', nth_error (cs_closers s1) k = Some q' /\ won q' = true).
  { clear. induction l as [|a l IH]; intros s s1 H k q HK HW; cbn [exec] in H; [injection H as <-; eauto|].
    destruct (close_step a s) as [s2|] eqn:E; [|discriminate]. 
    assert (exists q', nth_error (cs_closers s2) k = Some q' /\ won q' = true) as (q' & A1 & A2); [|eapply IH; eassumption].
    unfold close_step in E. destruct (cs_panic s); [discriminate|]. destruct a as [| |i| | |i lost]; try (injection E as <-; cbn; exists q; split; [try apply nth_snoc_old; exact HK|exact HW]).
    - destruct (nth_error (cs_closers s) i) as [p|] eqn:NK; [|discriminate].
      destruct (Nat.eq_dec i k) as [->|NE].
      + assert (p = q) by congruence. subst p. pose proof (nth_lt _ _ _ HK) as LT.
        unfold closer_step in E. cbv zeta in E. destruct q; cbn in HW; try discriminate; repeat match type of E with (if ?b then _ else _) = _ => destruct b | match ?b with Some _ => _ | None => _ end = _ => destruct b end;
        try discriminate; injection E as <-; cbn [cs_closers]; rewrite nth_upd_same by exact LT; eexists; (split; [reflexivity|]); try destruct (cs_conn s); cbn; auto.
      + unfold closer_step in E. cbv zeta in E. destruct p; repeat match type of E with (if ?b then _ else _) = _ => destruct b | match ?b with Some _ => _ | None => _ end = _ => destruct b end;
        try discriminate; injection E as <-; cbn [cs_closers]; rewrite nth_upd_other by exact NE; eauto.
    - unfold writer_step in E. destruct (cs_writer s); repeat match type of E with (if ?b then _ else _) = _ => destruct b | match ?b with Some _ => _ | None => _ end = _ => destruct b end;
        try discriminate; injection E as <-; cbn; eauto.
    - destruct (nth_error (cs_subs s) i) as [v|]; [|discriminate]. unfold vsub_step in E. destruct v; try discriminate;
        repeat match type of E with (if ?b then _ else _) = _ => destruct b | match ?b with WRun => _ | _ => _ end = _ => destruct b end; try discriminate; injection E as <-; cbn; eauto. }
  destruct (KEEP _ _ _ H _ _ K1 K2) as (q' & A1 & A2).
  destruct r'; auto; exfalso;
    (assert (k = j); [eapply (cnt_one won (cs_closers s')); try eassumption; try reflexivity; pose proof (ci_won s' (close_inv s' R')); destruct (cs_cancel s'); lia|]; apply nth_lt in K1; lia).
Qed.

(** Closing always runs to its end: every step of the program makes this number smaller... *)
Theorem C49_terminates a s s' : close_internal a -> close_step a s = Some s' -> close_weight s' < close_weight s.
Proof. apply close_decreases. Qed.
(** ... and when it has nothing left to do after some call of Close or after the connection's context ended, every call has returned,
    the writer has ended and so has every subscription except those whose Subscribe found the relay closed. *)
Theorem C49_released_partial s : close_reachable s -> cs_panic s = false -> close_quiet s -> cs_done s = true \/ cs_closers s <> [] ->
  cs_done s = true /\ (forall i p, nth_error (cs_closers s) i = Some p -> exists r, p = XEnd r) /\ cs_writer s = WEnd /\
  (forall j v, nth_error (cs_subs s) j = Some v -> v = VEnded \/ v = VGivenUp).
Proof.
  intros R P Q D. pose proof (close_inv s R) as I.
  assert (DN : cs_done s = true).
  { destruct D as [D|D]; [exact D|]. destruct (cs_done s) eqn:DN; [reflexivity|]. exfalso.
    assert (CC : cs_cancel s = true). { destruct (cs_cancel s) eqn:C; [reflexivity|]. pose proof (ci_done s I C). congruence. }
    pose proof (ci_won s I) as W. rewrite CC in W.
    assert (CL : forall i p, nth_error (cs_closers s) i = Some p -> (exists r, p = XEnd r) \/ (p = XLock /\ cs_mutex s <> None)).
    { intros i p HN. pose proof (Q (ZCloser i) Logic.I) as S. unfold close_step in S. rewrite P, HN in S. unfold closer_step in S. cbv zeta in S.
      destruct p; try discriminate; eauto; [right; split; [reflexivity|]; destruct (cs_mutex s); discriminate|destruct (cs_conn s); discriminate]. }
    assert (MX : cs_mutex s = None).
    { destruct (cs_mutex s) as [i|] eqn:M; [|reflexivity]. exfalso. apply (ci_mutex s I) in M as (p & HN & HP). destruct (CL _ _ HN) as [[r ->]|[-> _]]; discriminate. }
    destruct (cs_closers s) as [|p cl] eqn:EC; [congruence|]. destruct (CL 0 p) as [[r ->]|[_ X]]; [reflexivity| |congruence].
    destruct r; [cbn in W; lia| |cbn in W; lia].
    assert (cs_cancel s = false) by (apply (already_inv s 0 R); rewrite EC; right; reflexivity). congruence. }
  split; [exact DN|]. apply close_quiet_done; assumption.
Qed.

Definition close_demo : list caction :=
  [ZSubscribe; ZSub 0 false; ZSub 0 false; ZSubscribe; ZSub 1 false; ZClose; ZClose; ZCloser 1; ZCloser 1; ZCloser 1; ZCloser 1; ZCloser 1; ZCloser 1;
   ZWriter; ZWriter; ZWriter; ZSub 1 true; ZWriter; ZWriter; ZCloser 1; ZCloser 0; ZCloser 0; ZCloser 0].
Example C49_demo : exists s, exec close_step close_demo close_init = Some s /\ cs_panic s = false /\ close_quiet s /\ cs_done s = true /\
  cs_closes s = 1 /\ cs_closers s = [XEnd CAlready; XEnd CClosed] /\ cs_subs s = [VEnded; VEnded].
Proof.
  eexists. split; [vm_compute; reflexivity|]. split; [reflexivity|]. split; [|repeat split].
  intros [| |[|[|i]]| | |[|[|j]] lost] H; try contradiction; try reflexivity; match goal with k : nat |- _ => destruct k; reflexivity end.
Qed.

(** The writer goroutine forgets the connection between Close's two checks: the connection is never closed. *)
Theorem C49_never_closed_refuted : exists l s, exec close_step l close_init = Some s /\ cs_panic s = false /\ close_quiet s /\ cs_done s = true /\
  cs_closers s = [XEnd CNotConnected] /\ cs_closes s = 0.
Proof.
  exists [ZClose; ZCloser 0; ZCloser 0; ZCloser 0; ZWriter; ZWriter; ZWriter; ZCloser 0; ZCloser 0; ZCloser 0].
  eexists. split; [vm_compute; reflexivity|]. split; [reflexivity|]. split; [|repeat split].
  intros [| |[|[|i]]| | |j lost] H; try contradiction; try reflexivity; match goal with k : nat |- _ => destruct k; reflexivity end.
Qed.
(** Or between the check and the call, which is then a call on a nil connection. *)
Theorem C49_crash_refuted : exists l s, exec close_step l close_init = Some s /\ cs_panic s = true.
Proof.
  exists [ZClose; ZCloser 0; ZCloser 0; ZCloser 0; ZCloser 0; ZCloser 0; ZWriter; ZWriter; ZCloser 0]. eexists. split; [vm_compute; reflexivity|reflexivity].
Qed.
(** A subscription made after the relay was closed is never ended: Subscribe returns an error but leaves it, and its goroutine,
    behind. *)
Theorem C49_leak_refuted : exists l s, exec close_step l close_init = Some s /\ cs_panic s = false /\ close_quiet s /\ cs_done s = true /\
  cs_subs s = [VGivenUp].
Proof.
  exists [ZParent; ZWriter; ZWriter; ZWriter; ZSubscribe; ZSub 0 false].
  eexists. split; [vm_compute; reflexivity|]. split; [reflexivity|]. split; [|repeat split].
  intros [| |i| | |[|j] lost] H; try contradiction; try reflexivity; match goal with k : nat |- _ => destruct k; reflexivity end.
Qed.

Print Assumptions C46_only_valid_matching. Print Assumptions C46_matches_partial. Print Assumptions C46_unknown_dropped. Print Assumptions C46_delivered.
Print Assumptions C46_time_bounds_refuted. Print Assumptions C46_crash_refuted. Print Assumptions C46_forged_id_refuted. Print Assumptions C46_shadowed_refuted.
Print Assumptions C47_success_means_accepted_partial. Print Assumptions C47_rejection. Print Assumptions C47_expired. Print Assumptions C47_answer_for_own_event.
Print Assumptions C47_returns_once. Print Assumptions C47_lost_refuted. Print Assumptions C47_race_refuted. Print Assumptions C47_same_event_refuted.
Print Assumptions C48_routed_back. Print Assumptions C48_ids_distinct. Print Assumptions C48_id_injective.
Print Assumptions C49_closed_once. Print Assumptions C49_one_caller_wins. Print Assumptions C49_later_calls_fail. Print Assumptions C49_terminates.
Print Assumptions C49_released_partial. Print Assumptions C49_never_closed_refuted. Print Assumptions C49_crash_refuted. Print Assumptions C49_leak_refuted.

Print Assumptions C46_matches_partial.
Print Assumptions C46_unknown_dropped.
Print Assumptions C46_delivered.
Print Assumptions C46_crash_refuted.
Print Assumptions C46_forged_id_refuted.
Print Assumptions C46_shadowed_refuted.
Print Assumptions C47_rejection.
Print Assumptions C47_expired.
Print Assumptions C47_answer_for_own_event.
Print Assumptions C47_lost_refuted.
Print Assumptions C47_race_refuted.
Print Assumptions C47_same_event_refuted.
Print Assumptions C48_ids_distinct.
Print Assumptions C48_id_injective.
Print Assumptions C48_serial_clamped.
Print Assumptions C48_serial_other.
Print Assumptions C49_stays_open.
Print Assumptions C49_one_caller_wins.
Print Assumptions C49_later_calls_fail.
Print Assumptions C49_terminates.
Print Assumptions C49_never_closed_refuted.
Print Assumptions C49_crash_refuted.
Print Assumptions C49_leak_refuted.
