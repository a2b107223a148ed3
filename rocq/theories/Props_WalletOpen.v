(** C125: opening a wallet. *)
From Coq Require Import Permutation.
From Verif Require Import Base EventModel TagsModel FilterModel FilterProofs Nip19Model Machine WalletModel WalletLoadModel Props_Filter Props_Tags Props_WalletLoad WalletOpenModel.
Import ListNotations.
Local Open Scope Z_scope.

(** ** Specification, in terms of what is stored *)
Definition is_token (pk : str) (e : event) : Prop := ev_pubkey e = pk /\ ev_kind e = 7375.
(** A deletion by the owner that says it is about tokens and names this event. *)
Definition deletes (pk : str) (id : str) (d : event) : Prop :=
  ev_pubkey d = pk /\ ev_kind d = 5 /\ (exists rest, In (B "k" :: B "7375" :: rest) (ev_tags d)) /\ exists rest, In (B "e" :: id :: rest) (ev_tags d).

Lemma wallet_asks pk h e : nip01_match (wallet_filter pk h) e <-> ev_pubkey e = pk /\ (ev_kind e = 17375 \/ ev_kind e = 7375 \/ (ev_kind e = 7376 /\ h = true)).
Proof.
  unfold nip01_match, wallet_filter, wallet_kinds. cbn [f_ids f_kinds f_authors f_tags f_since f_until asks]. split.
  - intros (_ & K & A & _). split; [destruct A as [A|[]]; congruence|]. destruct h; cbn [app In] in K; repeat destruct K as [K|K]; auto; contradiction.
  - intros (A & K). repeat split; auto; [|left; congruence|intros n v []]. destruct h; cbn [app In]; destruct K as [K|[K|[K Q]]]; auto; discriminate.
Qed.
(** What is asked for is everything of the wallet and nothing else. *)
Theorem C125_asks pk h e : nip01_match (wallet_filter pk h) e <-> ev_pubkey e = pk /\ (ev_kind e = 17375 \/ ev_kind e = 7375 \/ (ev_kind e = 7376 /\ h = true)).
Proof. apply wallet_asks. Qed.
Theorem C125_asks_deletions pk d : nip01_match (wallet_deletions pk) d <-> ev_pubkey d = pk /\ ev_kind d = 5 /\ exists rest, In (B "k" :: B "7375" :: rest) (ev_tags d).
Proof.
  unfold nip01_match, wallet_deletions. cbn [f_ids f_kinds f_authors f_tags f_since f_until asks In]. split.
  - intros (_ & K & A & T & _). split; [intuition congruence|]. split; [intuition|]. destruct (T (B "k") [B "7375"] (or_introl eq_refl)) as (v & r & H1 & [<-|[]]). exists r. exact H1.
  - intros (A & K & r & T). repeat split; auto. intros n v [Q|[]]. injection Q as <- <-. exists (B "7375"), r. split; [exact T|left; reflexivity].
Qed.
(** A wallet is opened only with a key, and both questions are about that key's events. *)
Theorem C125_opened key h f d : open_wallet key h = Some (f, d) -> exists pk, key = Some pk /\ forall e, (nip01_match f e -> ev_pubkey e = pk) /\ (nip01_match d e -> ev_pubkey e = pk) /\
  (is_token pk e -> nip01_match f e) /\ (forall id, deletes pk id e -> nip01_match d e).
Proof.
  destruct key as [pk|]; [|discriminate]. intro H. injection H as <- <-. exists pk. split; [reflexivity|]. intro e. rewrite wallet_asks, C125_asks_deletions. unfold is_token, deletes. split; [intros (Q & _); exact Q|]. split; [intros (Q & _); exact Q|]. split; [intros (Q1 & Q2); split; [exact Q1|right; left; exact Q2]|]. intros id (Q1 & Q2 & Q3 & _). apply C125_asks_deletions. split; [exact Q1|]. split; [exact Q2|exact Q3].
Qed.

(** ** What the wallet holds *)
Section Open.
Variable decode : event -> option token.
Definition arrivals (ins : list incoming) : list arrival :=
  flat_map (fun i => match i with
    | InEvent e => if ev_kind e =? 7375 then match decode e with Some t => [ATok t] | None => [] end else []
    | InDeletion e => [ADel (map (fun t => nth 1 t []) (find_all (ev_tags e) (B "e")))]
    end) ins.
Lemma handled_arrivals ins : flat_map (handled decode) ins = flat_map handle (arrivals ins).
Proof.
  induction ins as [|i ins IH]; [reflexivity|]. unfold arrivals in *. cbn [flat_map]. rewrite flat_map_app, <- IH. f_equal.
  destruct i as [e|e]; cbn [handled]; [|reflexivity]. destruct (ev_kind e =? 7375); [|reflexivity]. destruct (decode e); reflexivity.
Qed.
Lemma arrivals_token ins t : In (ATok t) (arrivals ins) <-> exists e, In (InEvent e) ins /\ ev_kind e = 7375 /\ decode e = Some t.
Proof.
  unfold arrivals. rewrite in_flat_map. split.
  - intros (i & I1 & I2). destruct i as [e|e]; [|destruct I2 as [Q|[]]; discriminate]. destruct (Z.eqb_spec (ev_kind e) 7375) as [K|]; [|destruct I2]. destruct (decode e) as [t'|] eqn:D; [|destruct I2]. destruct I2 as [Q|[]]. assert (t' = t) as -> by congruence. exists e. auto.
  - intros (e & I1 & K & D). exists (InEvent e). split; [exact I1|]. rewrite K. cbn. rewrite D. left. reflexivity.
Qed.
Lemma find_all_e ts id : In id (map (fun t => nth 1 t []) (find_all ts (B "e"))) <-> exists rest, In (B "e" :: id :: rest) ts.
Proof.
  induction ts as [|t ts IH]; [cbn; split; [intros []|intros (r & [])]|]. destruct t as [|k [|v r]]; cbn [find_all].
  - rewrite IH. split; intros (r & H); exists r; [right; exact H|destruct H as [H|H]; [discriminate|exact H]].
  - rewrite IH. split; intros (r & H); exists r; [right; exact H|destruct H as [H|H]; [discriminate|exact H]].
  - destruct (seqb_spec k (B "e")) as [->|N]; cbn [map In nth].
    + rewrite IH. split; [intros [->|(q & H)]; [exists r; left; reflexivity|exists q; right; exact H]|]. intros (q & [H|H]); [left; congruence|right; exists q; exact H].
    + rewrite IH. split; intros (q & H); exists q; [right; exact H|destruct H as [H|H]; [congruence|exact H]].
Qed.
Lemma arrivals_deletions ins id : In id (deletions (arrivals ins)) <->
  (exists e t, In (InEvent e) ins /\ ev_kind e = 7375 /\ decode e = Some t /\ In id (tk_deleted t)) \/ (exists d rest, In (InDeletion d) ins /\ In (B "e" :: id :: rest) (ev_tags d)).
Proof.
  unfold deletions. rewrite in_flat_map. split.
  - intros (a & I1 & I2). destruct a as [t|ids].
    + apply arrivals_token in I1 as (e & I1 & K & D). left. exists e, t. auto.
    + unfold arrivals in I1. apply in_flat_map in I1 as (i & I1 & I3). destruct i as [e|e]; [destruct (ev_kind e =? 7375); [destruct (decode e); [destruct I3 as [Q|[]]; discriminate|destruct I3]|destruct I3]|]. destruct I3 as [Q|[]]. injection Q as <-. apply find_all_e in I2 as (r & I2). right. exists e, r. auto.
  - intros [(e & t & I1 & K & D & I2)|(d & r & I1 & I2)].
    + exists (ATok t). split; [apply arrivals_token; eauto|exact I2].
    + exists (ADel (map (fun t => nth 1 t []) (find_all (ev_tags d) (B "e")))). split; [unfold arrivals; apply in_flat_map; exists (InDeletion d); split; [exact I1|left; reflexivity]|apply find_all_e; eauto].
Qed.

Definition opening (ins : list incoming) : list oaction :=
  map OLoad (flat_map (handled decode) ins) ++ [OEoseE; OEoseD; OGotD; OGotE; OClose] ++
  map OLoad ([LFlag; LSnap] ++ repeat LRemove (length (deletions (arrivals ins))) ++ [LClear]).
Lemma lift_quiet acts s l : forallb (fun a => negb (is_flag a)) acts = true \/ o_pc s = OTold -> exec lstep acts (o_load s) = Some l ->
  exec ostep (map OLoad acts) s = Some (mkO l (o_eosed_e s) (o_eosed_d s) (o_pc s)).
Proof.
  revert s. induction acts as [|a acts IH]; intros s F E; cbn [exec map] in *; [injection E as <-; destruct s; reflexivity|].
  destruct (lstep a (o_load s)) as [l1|] eqn:L; [|discriminate]. cbn [ostep].
  assert (X : is_flag a && negb (match o_pc s with OTold => true | _ => false end) = false).
  { destruct F as [F| ->]; [|apply andb_false_r]. cbn [forallb] in F. apply andb_true_iff in F as [F _]. destruct (is_flag a); [discriminate|reflexivity]. }
  rewrite X, L. apply (IH (mkO l1 (o_eosed_e s) (o_eosed_d s) (o_pc s))); [|exact E]. destruct F as [F|F]; [left; cbn [forallb] in F; apply andb_true_iff in F as [_ F]; exact F|right; exact F].
Qed.
Lemma handled_no_flag ins : forallb (fun a => negb (is_flag a)) (flat_map (handled decode) ins) = true.
Proof.
  induction ins as [|i ins IH]; [reflexivity|]. cbn [flat_map]. rewrite forallb_app, IH, andb_true_r. destruct i as [e|e]; cbn [handled]; [|reflexivity]. destruct (ev_kind e =? 7375); [|reflexivity]. destruct (decode e); reflexivity.
Qed.
(** Everything that is stored for the wallet comes, in any order and any number of times, and then both relays' queries end: the wallet holds each stored token of its
    owner that can be read, once, except those that a deletion of the owner's about tokens names and those that another token says it replaces. *)
Theorem C125_holds pk h stored ins :
  (forall e t, decode e = Some t -> tk_event t = Some (ev_id e)) -> (forall e e', In e stored -> In e' stored -> ev_id e = ev_id e' -> e = e') ->
  (forall e, In (InEvent e) ins <-> In e stored /\ nip01_match (wallet_filter pk h) e) -> (forall d, In (InDeletion d) ins <-> In d stored /\ nip01_match (wallet_deletions pk) d) ->
  exists s, exec ostep (opening ins) onew = Some s /\ l_pc (o_load s) = Loaded /\ l_panic (o_load s) = false /\ NoDup (l_tokens (o_load s)) /\
    forall t, In t (l_tokens (o_load s)) <->
      exists e, In e stored /\ is_token pk e /\ decode e = Some t /\ (forall d, In d stored -> ~ deletes pk (ev_id e) d) /\
                (forall e' t', In e' stored -> is_token pk e' -> decode e' = Some t' -> ~ In (ev_id e) (tk_deleted t')).
Proof.
  intros HD HU HE HX. destruct (C71_load (arrivals ins)) as (l & L1 & L2 & L3 & L4).
  assert (TK : forall t, In (ATok t) (arrivals ins) <-> exists e, In e stored /\ is_token pk e /\ decode e = Some t).
  { intro t. rewrite arrivals_token. split; intros (e & A1 & A2 & A3); exists e.
    - apply HE in A1 as [A1 A1']. apply wallet_asks in A1' as [A4 _]. unfold is_token. auto.
    - destruct A2 as [A2 A4]. split; [|auto]. apply HE. split; [exact A1|]. apply wallet_asks. auto. }
  assert (PB : forall t, In (ATok t) (arrivals ins) -> published t). { intros t H. apply TK in H as (e & _ & _ & D). exists (ev_id e). apply (HD e t D). }
  assert (UQ : forall t u, In (ATok t) (arrivals ins) -> In (ATok u) (arrivals ins) -> same_event t u -> t = u).
  { intros t u A1 A2 (i & C1 & C2). apply TK in A1 as (e & I1 & _ & D1). apply TK in A2 as (e' & I2 & _ & D2). unfold carries in C1, C2. rewrite (HD _ _ D1) in C1. rewrite (HD _ _ D2) in C2. assert (e = e') as -> by (apply HU; auto; congruence). congruence. }
  destruct (gather_spec _ PB UQ) as [ND _]. destruct (C71_order _ _ _ _ PB UQ (Permutation_refl _) L1 L1) as [_ HI].
  exists (mkO l true true OTold). split; [|cbn [o_load]; split; [exact L2|split; [exact L3|split]]].
  - unfold opening. unfold schedule in L1. rewrite exec_app in L1. destruct (exec lstep (flat_map handle (arrivals ins)) lnew) as [l0|] eqn:E0; [|discriminate].
    rewrite exec_app. rewrite <- handled_arrivals in E0. rewrite (lift_quiet _ onew l0 (or_introl (handled_no_flag ins)) E0). cbn [onew o_eosed_e o_eosed_d o_pc]. cbn [app exec ostep o_pc o_load o_eosed_e o_eosed_d].
    match goal with |- exec ostep (map OLoad ?acts) ?s = _ => exact (lift_quiet acts s l (or_intror eq_refl) L1) end.
  - eapply Permutation_NoDup; [apply Permutation_sym; exact L4|]. apply NoDup_filter. exact ND.
  - intro t. rewrite HI, TK. split.
    + intros ((e & I1 & T & D) & N). exists e. split; [exact I1|]. split; [exact T|]. split; [exact D|]. split.
      * intros d Id (P1 & P2 & P3 & r & P4). apply (N (ev_id e)); [|apply (HD e t D)]. apply arrivals_deletions. right. exists d, r. split; [|exact P4]. apply HX. split; [exact Id|]. apply C125_asks_deletions. auto.
      * intros e' t' I' T' D' X. apply (N (ev_id e)); [|apply (HD e t D)]. apply arrivals_deletions. left. exists e', t'. split; [apply HE; split; [exact I'|]; apply wallet_asks; destruct T'; auto|]. destruct T'. auto.
    + intros (e & I1 & T & D & N1 & N2). split; [exists e; auto|]. intros i Ii C. unfold carries in C. rewrite (HD e t D) in C. assert (i = ev_id e) as -> by congruence. apply arrivals_deletions in Ii as [(e' & t' & A1 & A2 & A3 & A4)|(d & r & A1 & A2)].
      * apply HE in A1 as [A1 A1']. apply wallet_asks in A1' as [A5 _]. apply (N2 e' t' A1); [split; assumption|exact A3|exact A4].
      * apply HX in A1 as [A1 A1']. apply C125_asks_deletions in A1' as (A5 & A6 & A7). apply (N1 d A1). split; [exact A5|]. split; [exact A6|]. split; [exact A7|exists r; exact A2].
Qed.
End Open.

(** The wallet is not said to be ready before both queries have ended. *)
Theorem C125_ready_after_both s : reaches ostep onew s -> l_pc (o_load s) <> Waiting -> o_eosed_e s = true /\ o_eosed_d s = true.
Proof.
  intro R. assert (G : match o_pc s with OWaitD => l_pc (o_load s) = Waiting | OWaitE => l_pc (o_load s) = Waiting /\ o_eosed_d s = true | OBoth => l_pc (o_load s) = Waiting /\ o_eosed_d s = true /\ o_eosed_e s = true | OTold => o_eosed_d s = true /\ o_eosed_e s = true end).
  { revert s R. apply invariant; [reflexivity|]. intros a s s' HI E. destruct s as [l e d p]. cbn [o_load o_eosed_e o_eosed_d o_pc] in *. destruct a as [| | | | |a]; cbn [ostep o_load o_eosed_e o_eosed_d o_pc] in E.
    - injection E as <-. cbn. destruct p; tauto.
    - injection E as <-. cbn. destruct p; tauto.
    - destruct p; try discriminate. destruct d; [|discriminate]. injection E as <-. cbn. auto.
    - destruct p; try discriminate. destruct e; [|discriminate]. injection E as <-. cbn. tauto.
    - destruct p; try discriminate. injection E as <-. cbn. tauto.
    - destruct (is_flag a && _) eqn:F; [discriminate|]. destruct (lstep a l) as [l'|] eqn:L; [|discriminate]. injection E as <-. cbn [o_load o_eosed_e o_eosed_d o_pc].
      assert (W : p <> OTold -> l_pc l = Waiting -> l_pc l' = Waiting).
      { intros NP W. assert (is_flag a = false) by (destruct p; [destruct (is_flag a); [discriminate|reflexivity]..|congruence]). unfold lstep in L. destruct (l_panic l); [discriminate|]. rewrite W in L.
        destruct a; try discriminate; destruct (l_handler l) as [|js [|]|js [|]]; try discriminate; injection L as <-; try reflexivity; try exact W; unfold apply_removal; destruct (remove_all js (l_tokens l)); (reflexivity || exact W). }
      destruct p; try (apply W; [discriminate|exact HI]); try (destruct HI as [HI HI2]; split; [apply W; [discriminate|exact HI]|exact HI2]). exact HI. }
  intro N. destruct (o_pc s); tauto.
Qed.
(** Deletions need not say what kinds they are about (NIP-09: "SHOULD"); one that does not is not asked for, and the token it deletes stays in the wallet. *)
Theorem C125_plain_deletion_refuted : exists e d, is_token (B "me") e /\ ev_pubkey d = B "me" /\ ev_kind d = 5 /\ In [B "e"; ev_id e] (ev_tags d) /\
  exists s, exec ostep (opening (fun _ => Some (tok (B "a") [])) [InEvent e]) onew = Some s /\ l_tokens (o_load s) = [tok (B "a") []] /\ ~ nip01_match (wallet_deletions (B "me")) d.
Proof.
  exists (mkEvent (B "a") (B "me") 1 7375 [] [] []), (mkEvent (B "b") (B "me") 2 5 [[B "e"; B "a"]] [] []). repeat split; [left; reflexivity|]. eexists. split; [vm_compute; reflexivity|]. split; [reflexivity|].
  intro H. apply C125_asks_deletions in H as (_ & _ & r & [Q|[]]). discriminate.
Qed.
Example C125_example :
  let e1 := mkEvent (B "a") (B "me") 1 7375 [] [] [] in let e2 := mkEvent (B "b") (B "me") 2 7375 [] [] [] in let e3 := mkEvent (B "c") (B "me") 3 7375 [] [] [] in
  let d := mkEvent (B "d") (B "me") 4 5 [[B "e"; B "a"]; [B "k"; B "7375"]] [] [] in
  let decode := fun e => if seqb (ev_id e) (B "b") then Some (tok (B "b") [B "c"]) else Some (tok (ev_id e) []) in
  (forall e t, decode e = Some t -> tk_event t = Some (ev_id e)) /\ Forall (nip01_match (wallet_filter (B "me") false)) [e1; e2; e3] /\ nip01_match (wallet_deletions (B "me")) d /\
  exists s, exec ostep (opening decode [InDeletion d; InEvent e3; InEvent e1; InEvent e2; InEvent e2]) onew = Some s /\ l_tokens (o_load s) = [tok (B "b") [B "c"]].
Proof.
  cbv zeta. split; [|split; [|split]].
  - intros e t H. destruct (seqb_spec (ev_id e) (B "b")) as [->|]; injection H as <-; reflexivity.
  - repeat constructor; apply C125_asks; cbn; auto.
  - apply C125_asks_deletions. cbn. repeat split. exists []. right. left. reflexivity.
  - eexists. split; vm_compute; reflexivity.
Qed.

Print Assumptions C125_asks.
Print Assumptions C125_asks_deletions.
Print Assumptions C125_opened.
Print Assumptions C125_holds.
Print Assumptions C125_ready_after_both.
Print Assumptions C125_plain_deletion_refuted.
