(** C19, C20: protocol messages and the scanners of the relay reader. *)
From Verif Require Import Base JsonSpec EventModel EventProofs TagsModel FilterModel FilterProofs JLexModel JLexProofs
  JsonEventProofs JsonFilterProofs EnvelopeModel EnvelopeProofs ScanProofs Props_Json.
Local Open Scope nat_scope.

(** ** C19 *)
(** Same message: the fields that are sent. [sendable] is the normal form in which nothing is left unsaid: REQ and COUNT
    filters are normal (C18), a COUNT holds either a request or a result, an AUTH either a challenge or an event. *)
Definition sendable (m : envelope) : Prop :=
  match m with
  | EReq _ fs => Forall normal_filter fs
  | ECount _ f None hll => normal_filter f /\ hll = None
  | ECount _ f (Some _) _ => f = zero_filter
  | EAuth (Some _) e => e = zero_event
  | _ => True
  end.

Lemma received_same m : sendable m -> received m = m.
Proof.
  destruct m as [sub e|sub fs|sub f [n|] hll|s|s|s|sub reason|id ok reason|[c|] e]; cbn [sendable received]; intro H; try reflexivity.
  - f_equal. induction H as [|f fs H1 H2 IH]; [reflexivity|]. cbn [map]. rewrite IH, normal_canon by exact H1. reflexivity.
  - rewrite H. reflexivity.
  - destruct H as [H ->]. rewrite normal_canon by exact H. reflexivity.
  - rewrite H. reflexivity.
Qed.

(** Every message of every type, written and parsed again, is the same message (subscription ids without quote or
    backslash, at least one filter in a REQ, sketches of 256 bytes, UTF-8 text in events and filters). *)
Theorem C19_message_round_trip m : wf_envelope m -> sendable m ->
  exists t, marshal m = Ok t /\ parse_message t = Ok m.
Proof. intros H S. destruct (envelope_round_trip m H) as (t & M & P). exists t. split; [exact M|]. rewrite P, received_same by exact S. reflexivity. Qed.
Print Assumptions C19_message_round_trip.

(** NOTICE, EOSE, CLOSE and CLOSED carry any bytes whatever, also ones that are not UTF-8. *)
Theorem C19_text_messages : 
  (forall s, exists t, marshal (ENotice s) = Ok t /\ parse_message t = Ok (ENotice s)) /\
  (forall s, exists t, marshal (EEose s) = Ok t /\ parse_message t = Ok (EEose s)) /\
  (forall s, exists t, marshal (EClose s) = Ok t /\ parse_message t = Ok (EClose s)) /\
  (forall s r, exists t, marshal (EClosed s r) = Ok t /\ parse_message t = Ok (EClosed s r)) /\
  (forall c, exists t, marshal (EAuth (Some c) zero_event) = Ok t /\ parse_message t = Ok (EAuth (Some c) zero_event)).
Proof. repeat split; intros; apply C19_message_round_trip; cbn; auto. Qed.
Print Assumptions C19_text_messages.

(** An OK counts as accepted exactly when its third element is the JSON value true, whatever JSON value the relay puts
    there: a number, null, the string "true", an object and so on all count as refused. *)
Theorem C19_ok_flag id v tv reason : no_quote id = true -> enc tv v ->
  exists b, parse_message (B "[""OK"",""" ++ id ++ B """," ++ tv ++ B "," ++ jit_string reason ++ B "]") = Ok (EOk id b reason) /\
  (b = true <-> v = JBool true).
Proof.
  intros H Hv. pose proof (ok_flag id v tv reason H Hv) as E. eexists. split.
  - etransitivity; [|exact E]. f_equal. unfold jw_array, qt. cbn [comma_sep B list_ascii_of_string app]. repeat (rewrite <- app_assoc; cbn [app]). reflexivity.
  - destruct v as [|[|]| | | | ]; split; congruence.
Qed.
Print Assumptions C19_ok_flag.

Example C19_ok_flag_example :
  no_quote (B "ab") = true /\ enc (B """true""") (JStr (B "true")) /\
  parse_message (B "[""OK"",""ab"",""true"",""x""]") = Ok (EOk (B "ab") false (B "x")) /\
  parse_message (B "[""OK"",""ab"",1,""x""]") = Ok (EOk (B "ab") false (B "x")) /\
  parse_message (B "[""OK"",""ab"",true,""x""]") = Ok (EOk (B "ab") true (B "x")).
Proof.
  repeat split; try (vm_compute; reflexivity).
  change (B """true""") with (quote :: B "true" ++ [quote]). apply e_str.
  repeat (apply (ecs_cons [_] [_]); [apply ec_raw; [discriminate|discriminate|vm_compute; discriminate]|]). apply ecs_nil.
Qed.

(** How many elements after the label each message type may have. *)
Definition arity_ok (label : str) (n : nat) : Prop :=
  (label = B "EVENT" /\ (n = 1 \/ n = 2)) \/ (label = B "REQ" /\ 2 <= n) \/ (label = B "COUNT" /\ 2 <= n) \/
  (label = B "OK" /\ 3 <= n) \/ (label = B "NOTICE" /\ 1 <= n) \/ (label = B "EOSE" /\ 1 <= n) \/ (label = B "AUTH" /\ 1 <= n) \/
  (label = B "CLOSED" /\ n = 2) \/ (label = B "CLOSE" /\ n = 1).
(** The JSON array of a label and the texts of any JSON values. *)
Definition array_text (label : str) (ts : list str) : str :=
  B "[""" ++ label ++ B """" ++ flat_map (fun t => B "," ++ t) ts ++ B "]".
(** A message with another label, or with too few or too many elements, is refused. *)
Theorem C19_arity label ts : no_quote label = true -> Forall (fun t => exists v, enc t v) ts -> ~ arity_ok label (length ts) ->
  parse_message (array_text label ts) = Err.
Proof.
  intros NQ F A.
  assert (T : array_text label ts = jw_array (qt label :: ts)).
  { unfold array_text, jw_array, qt. cbn [B list_ascii_of_string app]. f_equal. clear. destruct ts as [|t ts]; [cbn [flat_map app comma_sep]; rewrite <- app_assoc; reflexivity|].
    revert label t. induction ts as [|u ts IH]; intros label t.
    - cbn [flat_map comma_sep app]. repeat (rewrite <- app_assoc; cbn [app]). reflexivity.
    - change (comma_sep ((quote :: label ++ [quote]) :: t :: u :: ts)) with ((quote :: label ++ [quote]) ++ ","%char :: comma_sep (t :: u :: ts)).
      change (comma_sep (t :: u :: ts)) with (t ++ ","%char :: comma_sep (u :: ts)).
      specialize (IH label u). cbn [flat_map app] in *.
      change (comma_sep ((quote :: label ++ [quote]) :: u :: ts)) with ((quote :: label ++ [quote]) ++ ","%char :: comma_sep (u :: ts)) in IH.
      repeat (rewrite <- app_assoc in *; cbn [app] in *). f_equal. 
      injection IH as IH. apply app_inv_head in IH. injection IH as IH. do 4 f_equal. rewrite IH. reflexivity. }
  assert (G : exists gs, Forall2 elem ts gs).
  { clear - F. induction F as [|t ts [v H] _ (gs & IH)]; [exists []; constructor|]. destruct (elem_enc t v H) as (x & o & E). exists (mkG t x o :: gs). constructor; assumption. }
  destruct G as (gs & G). rewrite T. destruct (round_trip_array label ts gs NQ G) as [P Q]. rewrite P. unfold from_json. rewrite Q.
  assert (L : length ts = length gs) by (clear - G; induction G; cbn [length]; congruence). rewrite L in A. clear - A. unfold arity_ok in A.
  destruct (seqb_spec label (B "EVENT")) as [S|_].
  { assert (N : ~ (length gs = 1 \/ length gs = 2)) by (intro; apply A; left; auto).
    destruct gs as [|? [|? [|? gs]]]; try reflexivity; cbn [length] in N; exfalso; apply N; auto. }
  destruct (seqb_spec label (B "REQ")) as [S|_].
  { assert (N : ~ 2 <= length gs) by (intro; apply A; right; left; auto).
    destruct gs as [|? [|? gs]]; try reflexivity; cbn [length] in N; lia. }
  destruct (seqb_spec label (B "COUNT")) as [S|_].
  { assert (N : ~ 2 <= length gs) by (intro; apply A; do 2 right; left; auto).
    destruct gs as [|? [|? gs]]; try reflexivity; cbn [length] in N; lia. }
  destruct (seqb_spec label (B "NOTICE")) as [S|_].
  { assert (N : ~ 1 <= length gs) by (intro; apply A; do 4 right; left; auto).
    destruct gs as [|? gs]; try reflexivity; cbn [length] in N; lia. }
  destruct (seqb_spec label (B "EOSE")) as [S|_].
  { assert (N : ~ 1 <= length gs) by (intro; apply A; do 5 right; left; auto).
    destruct gs as [|? gs]; try reflexivity; cbn [length] in N; lia. }
  destruct (seqb_spec label (B "OK")) as [S|_].
  { assert (N : ~ 3 <= length gs) by (intro; apply A; do 3 right; left; auto).
    destruct gs as [|? [|? [|? gs]]]; try reflexivity; cbn [length] in N; lia. }
  destruct (seqb_spec label (B "AUTH")) as [S|_].
  { assert (N : ~ 1 <= length gs) by (intro; apply A; do 6 right; left; auto).
    destruct gs as [|? gs]; try reflexivity; cbn [length] in N; lia. }
  destruct (seqb_spec label (B "CLOSED")) as [S|_].
  { assert (N : length gs <> 2) by (intro; apply A; do 7 right; left; auto).
    destruct gs as [|? [|? [|? gs]]]; try reflexivity; cbn [length] in N; lia. }
  destruct (seqb_spec label (B "CLOSE")) as [S|_]; [|reflexivity].
  assert (N : length gs <> 1) by (intro; apply A; do 8 right; auto).
  destruct gs as [|? [|? gs]]; try reflexivity; cbn [length] in N; lia.
Qed.
Print Assumptions C19_arity.
Example C19_arity_case : Forall (fun t => exists v, enc t v) [B "null"; B "true"; B "false"; B "null"] /\ ~ arity_ok (B "EVENT") 4 /\ ~ arity_ok (B "PING") 4 /\
  array_text (B "EVENT") [B "null"; B "true"; B "false"; B "null"] = B "[""EVENT"",null,true,false,null]" /\
  parse_message (B "[""CLOSE"",""a"",""b""]") = Err /\ parse_message (B "[""CLOSE"",""a""]") = Ok (EClose (B "a")).
Proof.
  split; [repeat constructor; eexists; constructor|]. split; [intros [[_ H]|H]; [lia|]; repeat destruct H as [[H _]|H]; try discriminate H; destruct H; discriminate|].
  split; [intros [[H _]|H]; [discriminate H|]; repeat destruct H as [[H _]|H]; try discriminate H; destruct H; discriminate|].
  repeat split; vm_compute; reflexivity.
Qed.

(** The wire text determines the message. *)
Corollary C19_encoding_injective m1 m2 t : wf_envelope m1 -> sendable m1 -> wf_envelope m2 -> sendable m2 ->
  marshal m1 = Ok t -> marshal m2 = Ok t -> m1 = m2.
Proof.
  intros A1 A2 B1 B2 E1 E2. destruct (C19_message_round_trip m1 A1 A2) as (t1 & M1 & P1). destruct (C19_message_round_trip m2 B1 B2) as (t2 & M2 & P2). congruence.
Qed.
Print Assumptions C19_encoding_injective.

(** Instances of the hypotheses: an EVENT, a REQ with two filters, a COUNT result with a sketch. *)
Example C19_example :
  (wf_envelope (EEvent (Some (B "1:x")) hard_event) /\ sendable (EEvent (Some (B "1:x")) hard_event)) /\
  (wf_envelope (EReq (B "2:") [sample_filter; sample_filter]) /\ sendable (EReq (B "2:") [sample_filter; sample_filter])) /\
  (wf_envelope (ECount (B "2:") zero_filter (Some 7%Z) (Some (repeat (byte_of 9) 256))) /\ sendable (ECount (B "2:") zero_filter (Some 7%Z) (Some (repeat (byte_of 9) 256)))).
Proof.
  destruct C18_example as (F1 & F2 & _). destruct C17_example as (E1 & _).
  cbn [wf_envelope sendable]. unfold int64, min_int64, max_int64.
  split; [|split].
  - split; [split; [reflexivity|exact E1]|exact I].
  - split; [split; [reflexivity|split; [discriminate|]]|]; [constructor; [exact F1|constructor; [exact F1|constructor]]|constructor; [exact F2|constructor; [exact F2|constructor]]].
  - split; [|reflexivity]. split; [reflexivity|]. split; [lia|reflexivity].
Qed.

(** Where it fails. A subscription id with a quote is not escaped. *)
Theorem C19_quote_in_id_refuted : exists s t m, marshal (EReq s [zero_filter]) = Ok t /\ json_parse t = None /\ parse_message t = m /\ m <> Ok (EReq s [zero_filter]).
Proof. exists (B "a""b"). do 2 eexists. split; [reflexivity|]. split; [vm_compute; reflexivity|]. split; [reflexivity|]. vm_compute. discriminate. Qed.
Print Assumptions C19_quote_in_id_refuted.
(** A REQ without filters is written but cannot be read. *)
Theorem C19_empty_req_refuted : exists s t, marshal (EReq s []) = Ok t /\ parse_message t = Err.
Proof. exists (B "a"). eexists. split; [reflexivity|]. vm_compute. reflexivity. Qed.
Print Assumptions C19_empty_req_refuted.
(** A COUNT result with a sketch longer than 256 bytes crashes the writer; a shorter one is lost or padded. *)
Theorem C19_long_hll_refuted : exists h, marshal (ECount (B "a") zero_filter (Some 1%Z) (Some h)) = Panic.
Proof. exists (repeat (byte_of 0) 257). vm_compute. reflexivity. Qed.
Print Assumptions C19_long_hll_refuted.
Theorem C19_short_hll_refuted : exists h t, marshal (ECount (B "a") zero_filter (Some 1%Z) (Some h)) = Ok t /\ json_parse t = None.
Proof. exists [byte_of 1]. eexists. split; [reflexivity|]. vm_compute. reflexivity. Qed.
Print Assumptions C19_short_hll_refuted.


(** Half of a surrogate pair, with no other escape of that kind after it, is read as U+FFFD, and what follows is read as usual. *)
Theorem C19_lone_surrogate a b c d cp r : hex4 a b c d = Some cp -> is_surrogate cp = true -> (forall t, r <> bslash :: "u"%char :: t) -> g_unescape (bslash :: "u"%char :: a :: b :: c :: d :: r) = map byte_of [0xEF; 0xBF; 0xBD]%N ++ g_unescape r.
Proof.
  intros H S N. cbn [g_unescape]. change (ceqb bslash bslash) with true. change (ceqb "u" "u") with true. cbv iota. rewrite H, S. change (map byte_of [239; 191; 189]%N) with (utf8 0xFFFD).
  destruct r as [|x [|y [|e [|f [|g [|h r]]]]]]; try reflexivity.
  assert (E : ceqb x bslash && ceqb y "u"%char = false); [|rewrite E; reflexivity].
  destruct (ceqb x bslash && ceqb y "u"%char) eqn:E; [|reflexivity]. apply andb_prop in E as [E1 E2]. apply Ascii.eqb_eq in E1, E2. subst. destruct (N (e :: f :: g :: h :: r) eq_refl).
Qed.
Example C19_lone_surrogate_example : hex4 "d" "8" "0" "0" = Some 0xD800%N /\ is_surrogate 0xD800 = true /\ g_unescape (B "x\ud800\nabcdef") = B "x" ++ map byte_of [0xEF; 0xBF; 0xBD; 10]%N ++ B "abcdef".
Proof. repeat split; vm_compute; reflexivity. Qed.
(** ** C20 *)
(** The relay reader's scanners on a received EVENT message agree with what the full parser gives, for every event with
    64-digit hex id and author and any content and tags. The theorem is partial: the timestamp is not negative and the
    subscription id is not the literal name of one of the two fields (ids made by this library start with a digit). *)
Theorem C20_scanners_agree_partial sub e t : marshal (EEvent (Some sub) e) = Ok t ->
  no_quote sub = true -> text_event e -> hex64 (ev_id e) -> hex64 (ev_pubkey e) ->
  sub <> B "pubkey" -> sub <> B "created_at" -> (0 <= ev_created_at e)%Z ->
  exists sub' e', parse_message t = Ok (EEvent (Some sub') e') /\
    extract_sub_id t = Ok sub' /\
    extract_event_id (skipn (10 + length sub) t) = Ok (ev_id e') /\
    extract_pubkey t = Ok (ev_pubkey e') /\
    extract_timestamp t = ev_created_at e'.
Proof.
  intros M Hs He H1 H2 N1 N2 Hc. exists sub, e.
  destruct (C19_message_round_trip (EEvent (Some sub) e)) as (t' & M' & P); [split; assumption|exact I|].
  rewrite M in M'. injection M' as <-. split; [exact P|]. rewrite event_msg_marshal in M. injection M as <-.
  split; [apply scan_sub, Hs|]. split; [apply scan_id; assumption|]. split; [apply scan_pubkey; assumption|].
  apply scan_timestamp; try assumption. destruct He as (_ & _ & _ & _ & _ & [_ He] & _). split; [exact Hc|exact He].
Qed.
Print Assumptions C20_scanners_agree_partial.

(** The d tag scanner gives the value of the first d tag, when that tag has a value that is written without escapes, and
    nothing when there is none. *)
Theorem C20_d_tag_partial sub e t : marshal (EEvent (Some sub) e) = Ok t ->
  no_quote sub = true -> text_event e -> hex64 (ev_id e) -> hex64 (ev_pubkey e) ->
  (forall d, find is_d (ev_tags e) = Some d -> exists v l, d = B "d" :: v :: l /\ unescaped v) ->
  extract_d_tag t = d_value (ev_tags e).
Proof. intros M Hs He H1 H2 HD. rewrite event_msg_marshal in M. injection M as <-. apply scan_d; assumption. Qed.
Print Assumptions C20_d_tag_partial.

(** The content may hold anything, here the very texts the scanners look for. *)
Definition hex_id : str := hex_encode (repeat (byte_of 0xAB) 32).
Definition tricky : event :=
  mkEvent hex_id (hex_encode (repeat (byte_of 0x17) 32)) 1700000000 30023
    [[B "id"; B "pubkey"; B "[""d""evil"]; [B "[""d"; B "d"]; [B "d"; B "slug"; B "x"]; [B "d"; B "other"]]
    (B """id"":""xx"",""pubkey"":""yy"",""created_at"":1,[""d"",""z""]") (B "00").
Example C20_example :
  text_event tricky /\ hex64 (ev_id tricky) /\ hex64 (ev_pubkey tricky) /\
  exists t, marshal (EEvent (Some (B "3:sub")) tricky) = Ok t /\
  extract_sub_id t = Ok (B "3:sub") /\ extract_event_id (skipn (10 + 5) t) = Ok hex_id /\
  extract_pubkey t = Ok (ev_pubkey tricky) /\ extract_timestamp t = 1700000000%Z /\ extract_d_tag t = B "slug" /\ d_value (ev_tags tricky) = B "slug".
Proof.
  assert (A : forall s, forallb (fun c => (val c <? 0x80)%N) s = true -> utf8_text s).
  { intros s H. apply utf8_text_ascii. rewrite forallb_forall in H. apply Forall_forall. intros c Hc. specialize (H c Hc). lia. }
  split; [|split; [split; vm_compute; reflexivity|split; [split; vm_compute; reflexivity|]]].
  - unfold text_event, int64, tricky. cbn [ev_id ev_pubkey ev_content ev_sig ev_tags ev_kind ev_created_at].
    repeat split; try (apply A; reflexivity); try (unfold min_int64, max_int64; lia).
    repeat (constructor; [repeat (constructor; [apply A; reflexivity|]); constructor|]). constructor.
  - eexists. split; [reflexivity|]. repeat split; vm_compute; reflexivity.
Qed.

(** Where the scanners and the parser part. A negative timestamp loses its sign. *)
Definition plain_ev (ts : Z) (tags : list tag) : event := mkEvent hex_id hex_id ts 1 tags [] (B "00").
Theorem C20_negative_time_refuted : exists e t, marshal (EEvent (Some (B "1:")) e) = Ok t /\
  parse_message t = Ok (EEvent (Some (B "1:")) e) /\ extract_timestamp t <> ev_created_at e.
Proof. exists (plain_ev (-7) []). eexists. split; [reflexivity|]. split; [vm_compute; reflexivity|]. vm_compute. discriminate. Qed.
Print Assumptions C20_negative_time_refuted.
(** A subscription called pubkey hides the author. *)
Theorem C20_sub_named_pubkey_refuted : exists e t, marshal (EEvent (Some (B "pubkey")) e) = Ok t /\
  parse_message t = Ok (EEvent (Some (B "pubkey")) e) /\ extract_pubkey t <> Ok (ev_pubkey e).
Proof. exists (plain_ev 7 []). eexists. split; [reflexivity|]. split; [vm_compute; reflexivity|]. vm_compute. discriminate. Qed.
Print Assumptions C20_sub_named_pubkey_refuted.
(** An escaped quote in the value of the d tag cuts it; a d tag without a value takes a string from elsewhere. *)
Theorem C20_d_tag_refuted :
  (exists e t, marshal (EEvent (Some (B "1:")) e) = Ok t /\ parse_message t = Ok (EEvent (Some (B "1:")) e) /\ find is_d (ev_tags e) = Some [B "d"; B "a""b"] /\ extract_d_tag t <> B "a""b") /\
  (exists e t, marshal (EEvent (Some (B "1:")) e) = Ok t /\ parse_message t = Ok (EEvent (Some (B "1:")) e) /\ find is_d (ev_tags e) = Some [B "d"] /\ extract_d_tag t = B "t").
Proof.
  split.
  - exists (plain_ev 7 [[B "d"; B "a""b"]]). eexists. split; [reflexivity|]. repeat split; vm_compute; try reflexivity. discriminate.
  - exists (plain_ev 7 [[B "d"]; [B "t"; B "u"]]). eexists. split; [reflexivity|]. repeat split; vm_compute; reflexivity.
Qed.
Print Assumptions C20_d_tag_refuted.
(** Messages of other writers: fields in another order let a tag pass for the id, and malformed ones crash the reader. *)
Definition swapped : str := B "[""EVENT"",""1:"",{""tags"":[[""id"",""" ++ repeat "0"%char 64 ++ B """]],""id"":""" ++ hex_id ++ B """}]".
Theorem C20_field_order_refuted : exists e, parse_message swapped = Ok (EEvent (Some (B "1:")) e) /\ extract_event_id (skipn 12 swapped) <> Ok (ev_id e).
Proof. eexists. split; [vm_compute; reflexivity|]. vm_compute. discriminate. Qed.
Print Assumptions C20_field_order_refuted.
Theorem C20_crash_refuted : extract_sub_id (B "[""EVENT"",""") = Panic /\
  exists s t e, parse_message t = Ok (EEvent (Some s) e) /\ extract_sub_id t = Ok s /\ extract_event_id (skipn (10 + length s) t) = Panic.
Proof.
  split; [vm_compute; reflexivity|]. exists (B "1:"), (B "[""EVENT"",""1:"",{""id"":""ab""}]"). eexists. split; [vm_compute; reflexivity|]. split; vm_compute; reflexivity.
Qed.
Print Assumptions C20_crash_refuted.

Print Assumptions C19_lone_surrogate.

(** A text whose first character that is not a space (or another character up to 32) is not an opening bracket is no message, whatever stands in it. *)
Theorem C19_not_an_array sp c r : Forall (fun x => (val x <= 32)%N) sp -> (32 < val c)%N -> c <> "["%char -> parse_message (sp ++ c :: r) = Err.
Proof.
  intros HS HC NC. unfold parse_message. destruct (cut_quote (sp ++ c :: r)) as [[p q]|]; [|reflexivity]. destruct (cut_quote q) as [[label q']|]; [|reflexivity].
  assert (G : g_array (sp ++ c :: r) = [mkG (sp ++ c :: r) [] false]).
  { unfold g_array. assert (E : g_span (fun c => negb (val c <=? 32)%N) (sp ++ c :: r) = (sp, c :: r)).
    { induction HS as [|x sp HX HS IH]; cbn [app g_span].
      - replace (val c <=? 32)%N with false by (symmetry; apply N.leb_gt; exact HC). reflexivity.
      - replace (val x <=? 32)%N with true by (symmetry; apply N.leb_le; exact HX). cbn [negb]. rewrite IH. reflexivity. }
    rewrite E. replace (ceqb c "["%char) with false; [reflexivity|]. symmetry. apply Ascii.eqb_neq. exact NC. }
  unfold from_json. rewrite G. repeat match goal with |- context[if seqb ?a ?b then _ else _] => destruct (seqb a b); [reflexivity|] end. reflexivity.
Qed.
Print Assumptions C19_not_an_array.
Example C19_not_an_array_example : parse_message (B " ![""CLOSE"",""x""]") = Err /\ parse_message (B "  [""CLOSE"",""x""]") = Ok (EClose (B "x")).
Proof. split; vm_compute; reflexivity. Qed.
