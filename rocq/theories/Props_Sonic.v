(** C103: the message parser built with the tag "sonic" (/repo/envelopes_sonic.go). *)
From Verif Require Import Base JsonSpec EventModel EventProofs TagsModel FilterModel FilterProofs JLexModel JLexProofs
  JsonEventProofs JsonFilterProofs EnvelopeModel EnvelopeProofs Props_Json Props_Envelope SonicModel SonicProofs SonicMemProofs.
Local Open Scope nat_scope.

(** ** What it reads *)
(** Every message the library writes is read back as the same message, as the default parser reads it (C19). Beyond C19
    the raw ids must hold no control bytes, and the ids of OK and CLOSED must not be empty (see below). *)
Theorem C103_round_trip m : wf_envelope m -> sendable m -> plain_ids m ->
  exists t, marshal m = Ok t /\ sonic_parse t = Ok (Some (SMsg m), None) /\ parse_message t = Ok m.
Proof.
  intros H1 H2 H3. destruct (sonic_round_trip m H1 H3) as (t & M & P). destruct (C19_message_round_trip m H1 H2) as (t' & M' & P').
  assert (t' = t) as -> by congruence. exists t. rewrite received_same in P by exact H2. auto.
Qed.
Print Assumptions C103_round_trip.
Example C103_round_trip_example : 
  (wf_envelope (EEvent (Some (B "1:x")) hard_event) /\ sendable (EEvent (Some (B "1:x")) hard_event) /\ plain_ids (EEvent (Some (B "1:x")) hard_event)) /\
  (wf_envelope (EReq (B "2:") [sample_filter; sample_filter]) /\ sendable (EReq (B "2:") [sample_filter; sample_filter]) /\ plain_ids (EReq (B "2:") [sample_filter; sample_filter])).
Proof. destruct C19_example as ((A1 & A2) & (D1 & D2) & _). repeat split; try assumption; first [apply A1|apply D1|reflexivity|idtac]; assumption. Qed.

(** An EVENT whose object has its attributes in any order, and any of them more than once: the last one counts. *)
Theorem C103_event sub al : Forall eattr_ok al ->
  sonic_json (JArr (JStr (B "EVENT") :: match sub with Some s => [JStr s] | None => [] end ++ [JObj (map eattr_json al)])) =
  Ok (Some (SMsg (EEvent sub (fold_left eattr_set al zero_event))), None).
Proof. apply s_event. Qed.
Print Assumptions C103_event.
(** The same for any number of filter objects in a REQ. *)
Theorem C103_req sub als : Forall (Forall fattr_ok) als ->
  sonic_json (JArr (JStr (B "REQ") :: JStr sub :: map (fun al => JObj (map fattr_json al)) als)) =
  Ok (Some (SMsg (EReq sub (map (fun al => fold_left fattr_set al zero_filter) als))), None).
Proof. apply s_req. Qed.
Print Assumptions C103_req.
Example C103_event_example : Forall eattr_ok [ATags [[B "p"; B "x"]; []]; AKind 7; AContent (B "a"); AKind (-1)] /\
  fold_left eattr_set [ATags [[B "p"; B "x"]; []]; AKind 7; AContent (B "a"); AKind (-1)] zero_event = mkEvent [] [] 0 (-1) [[B "p"; B "x"]; []] (B "a") [].
Proof. split; [repeat constructor; cbn; unfold small, min_int64, max_int64; lia|reflexivity]. Qed.
Example C103_req_example : Forall (Forall fattr_ok) [[FLimit 0; FTag (B "p") [B "x"]; FKinds [1%Z]]; []] /\
  map (fun al => fold_left fattr_set al zero_filter) [[FLimit 0; FTag (B "p") [B "x"]; FKinds [1%Z]]; []] =
  [mkFilter None (Some [1%Z]) None [(B "p", Some [B "x"])] None None 0 [] true; zero_filter].
Proof. split; [repeat constructor; cbn; unfold small, min_int64, max_int64; try lia; discriminate|reflexivity]. Qed.

(** Findings: messages on which it parts from the default parser. *)
(** A label alone: the default parser refuses it, this one returns a nil pointer in a non-nil interface, and no error. The
    relay's reader (relay.go:241-316) follows the pointer: a relay that sends this ends the client. *)
Theorem C103_label_alone_refuted : exists t, sonic_parse t = Ok (Some (SNil (B "EOSE")), None) /\ parse_message t = Err.
Proof. exists (B "[""EOSE""]"). split; vm_compute; reflexivity. Qed.
Print Assumptions C103_label_alone_refuted.
(** A REQ with a count in its filter: the visitor follows a nil pointer. *)
Theorem C103_count_in_req_refuted : exists t m, sonic_parse t = Panic /\ parse_message t = Ok m.
Proof. exists (B "[""REQ"",""x"",{""count"":1}]"). eexists. split; vm_compute; reflexivity. Qed.
Print Assumptions C103_count_in_req_refuted.
(** A COUNT answer that says it is approximate (NIP-45) is refused. *)
Theorem C103_approximate_refuted : exists t m, parse_message t = Ok m /\ sonic_parse t = Ok (None, Some OtherError).
Proof. exists (B "[""COUNT"",""x"",{""count"":1,""approximate"":true}]"). eexists. split; vm_compute; reflexivity. Qed.
Print Assumptions C103_approximate_refuted.
(** An OK for an empty id: the reason is taken for the id. *)
Theorem C103_empty_id_refuted : exists t i r, parse_message t = Ok (EOk i false r) /\ sonic_parse t = Ok (Some (SMsg (EOk r false [])), None) /\ r <> [].
Proof. exists (B "[""OK"","""",false,""blocked""]"), [], (B "blocked"). repeat split; try (vm_compute; reflexivity). discriminate. Qed.
Print Assumptions C103_empty_id_refuted.
(** An EVENT without an event is taken for the empty event. *)
Theorem C103_no_event_refuted : exists t, sonic_parse t = Ok (Some (SMsg (EEvent None zero_event)), None) /\ parse_message t = Err.
Proof. exists (B "[""EVENT""]"). split; vm_compute; reflexivity. Qed.
Print Assumptions C103_no_event_refuted.
(** An event with a null attribute is refused; the default parser passes over it. *)
Theorem C103_null_refuted : exists t m, parse_message t = Ok m /\ exists x, sonic_parse t = Ok (x, Some OtherError).
Proof. exists (B "[""EVENT"",""x"",{""kind"":1,""content"":null}]"). eexists. split; [vm_compute; reflexivity|]. eexists. vm_compute. reflexivity. Qed.
Print Assumptions C103_null_refuted.

(** ** The arrays it hands out *)
(** The result of a call, looked at when the call returns, is what the lists above say: whatever the arrays hold from
    earlier calls, however long the lists are, and wherever an array runs out. The parser stays usable. *)
Theorem C103_when_returned j m : wfp m ->
  match parse_call j m, sonic_json j with
  | Ok (x, e, m'), Ok (y, e') => option_map (look m') x = y /\ e = e' /\ wfp m'
  | Panic, Panic => True
  | _, _ => False
  end.
Proof.
  intro H. pose proof (heap_run_spec j _ m (settled_none m H)) as R. unfold parse_call.
  destruct (heap_run j m) as [[[x e] m']| |], (sonic_json j) as [[y e']| |]; try contradiction; try exact I.
  destruct R as (-> & W & (N1 & N2 & N3) & G' & _ & A & (z & Z1 & Z2) & _). repeat split.
  - rewrite <- Z2. destruct x as [x|], z as [z|]; cbn [ropt option_map] in *; try contradiction; [|reflexivity].
    f_equal. exact (look_eq G' m' x z A Z1).
  - destruct H as ((H & _) & _). cbn. lia.
  - apply H.
  - destruct H as (_ & (H & _) & _). cbn. lia.
  - apply H.
  - destruct H as (_ & _ & (H & _)). cbn. lia.
  - apply H.
Qed.
Print Assumptions C103_when_returned.
Example C103_when_returned_example : wfp new_parser /\
  match parse_call (JArr [JStr (B "EVENT"); JObj [(B "tags", JArr [JArr [JStr (B "p"); JStr (B "x")]])]]) new_parser with Ok (_, _, m') => wfp m' | _ => False end.
Proof. split; [exact wfp_new|]. vm_compute. repeat split; lia. Qed.

(** But the next call writes over it. ParseMessage has a value receiver, so the parser's positions are back where they were
    and the next message is put into the same cells. Here the first event's tag changes from "alice" to "mallo" when a second
    message comes in: after its signature was checked, and while the application holds it. *)
Definition tagged (who : str) : json := JArr [JStr (B "EVENT"); JStr (B "s"); JObj [(B "tags", JArr [JArr [JStr (B "p"); JStr who]])]].
Theorem C103_overwritten_refuted : exists j1 j2 e e',
  match parse_call j1 new_parser with
  | Ok (Some x1, None, m1) => look m1 x1 = SMsg (EEvent (Some (B "s")) e) /\
    match parse_call j2 m1 with Ok (Some x2, None, m2) => look m2 x1 = SMsg (EEvent (Some (B "s")) e') | _ => False end
  | _ => False
  end /\ ev_tags e = [[B "p"; B "alice"]] /\ ev_tags e' = [[B "p"; B "mallo"]].
Proof.
  exists (tagged (B "alice")), (tagged (B "mallo")), (mkEvent [] [] 0 0 [[B "p"; B "alice"]] [] []), (mkEvent [] [] 0 0 [[B "p"; B "mallo"]] [] []).
  vm_compute. repeat split.
Qed.
Print Assumptions C103_overwritten_refuted.

(** Messages one after the other with the positions kept, as a pointer receiver would do; None if one panics or fails. *)
Fixpoint keep_run (js : list json) (m : smem) : option (list (option henv) * smem) :=
  match js with
  | [] => Some ([], m)
  | j :: js' =>
    match heap_run j m with
    | Ok (x, None, m1) => match keep_run js' m1 with Some (xs, m2) => Some (x :: xs, m2) | None => None end
    | _ => None
    end
  end.
(** Then every message stays as it was read, through any number of later messages. Partial: this is the program with the
    receiver changed, and for messages read without error. *)
Theorem C103_kept_partial js xs m : keep_run js new_parser = Some (xs, m) ->
  Forall2 (fun j x => sonic_json j = Ok (option_map (look m) x, None)) js xs.
Proof.
  assert (K : forall js G m0 xs m, settled G m0 -> keep_run js m0 = Some (xs, m) ->
    exists G', ghle G G' /\ agrees G' m /\ Forall2 (fun j x => exists z, ropt (renv G') x z /\ sonic_json j = Ok (option_map (view_env _ _ _ id id id) z, None)) js xs).
  { clear. induction js as [|j js IH]; intros G m0 xs m HS E; cbn [keep_run] in E.
    - assert (xs = []) as -> by congruence. assert (m = m0) as -> by congruence. exists G. split; [apply ghle_refl|]. split; [apply HS|constructor].
    - pose proof (heap_run_spec j G m0 HS) as R. destruct (heap_run j m0) as [[[x [e|]] m1]| |]; try discriminate E.
      destruct (sonic_json j) as [[y e']| |] eqn:EJ; try contradiction. destruct R as (<- & _ & _ & G1 & L1 & A1 & (z & Z1 & Z2) & S1).
      destruct (keep_run js m1) as [[ys m2]|] eqn:EK; [|discriminate E]. assert (xs = x :: ys) as -> by congruence. assert (m = m2) as -> by congruence.
      destruct (IH G1 m1 ys m2 (S1 eq_refl) EK) as (G2 & L2 & A2 & F2). exists G2. split; [eapply ghle_trans; eassumption|]. split; [exact A2|].
      constructor; [|exact F2]. exists z. split; [|rewrite EJ, Z2; reflexivity]. eapply ropt_impl; [|exact Z1]. intros; eapply renv_mono; eassumption. }
  intro E. destruct (K js no_ghost new_parser xs m (settled_none _ wfp_new) E) as (G & _ & A & F).
  induction F as [|j x js' xs' (z & Z1 & Z2) F IH] in A |- *; constructor.
  - rewrite Z2. do 2 f_equal. destruct x as [x|], z as [z|]; cbn [ropt option_map] in *; try contradiction; [|reflexivity]. f_equal. symmetry. exact (look_eq G m x z A Z1).
  - apply IH, A.
Qed.
Print Assumptions C103_kept_partial.
Example C103_kept_example : match keep_run [tagged (B "alice"); tagged (B "mallo")] new_parser with
  | Some ([Some x; Some y], m) => look m x <> look m y | _ => False end.
Proof. vm_compute. discriminate. Qed.
