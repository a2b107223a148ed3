(** C124: requests to a mint. *)
From Verif Require Import Base Machine HttpUrlModel HttpUrlProofs MintHttpModel.
Import ListNotations.
Local Open Scope nat_scope.

(** ** Where requests go *)
(** The endpoints of NUT-01 to NUT-09, as written in the protocol. *)
Definition endpoint (c : mcall) (m p : string) (id : str) : Prop :=
  match c with
  | GetInfo => m = "GET" /\ p = "/v1/info" /\ id = []
  | GetKeys => m = "GET" /\ p = "/v1/keys" /\ id = []
  | GetKeysets => m = "GET" /\ p = "/v1/keysets" /\ id = []
  | GetKeysById i => m = "GET" /\ p = "/v1/keys/" /\ id = i
  | PostMintQuote _ => m = "POST" /\ p = "/v1/mint/quote/bolt11" /\ id = []
  | GetMintQuote i => m = "GET" /\ p = "/v1/mint/quote/bolt11/" /\ id = i
  | PostMint _ => m = "POST" /\ p = "/v1/mint/bolt11" /\ id = []
  | PostSwap _ => m = "POST" /\ p = "/v1/swap" /\ id = []
  | PostMeltQuote _ => m = "POST" /\ p = "/v1/melt/quote/bolt11" /\ id = []
  | GetMeltQuote i => m = "GET" /\ p = "/v1/melt/quote/bolt11/" /\ id = i
  | PostMelt _ => m = "POST" /\ p = "/v1/melt/bolt11" /\ id = []
  | PostCheck _ => m = "POST" /\ p = "/v1/checkstate" /\ id = []
  | PostRestore _ => m = "POST" /\ p = "/v1/restore" /\ id = []
  end%string.
(** A mint at a plain http(s) address without a query: the request goes to its host, to its path with the endpoint's behind it, if the id has only
    characters that stand for themselves in a path. *)
Theorem C124_endpoint u c m p id : plain_ok u = true -> pl_pairs u = [] -> endpoint c m p id -> forallb path_char id = true ->
  url_parse (mcall_url (write_plain enc_pair u) c) = Some (mkHUrl (scheme_of u) [] (host_of u) false (pl_path u ++ B p ++ id) [] false [] [] []) /\
  (mcall_body c = None <-> m = "GET"%string) /\ (m = "GET" \/ m = "POST")%string.
Proof.
  intros HU HP HE HI.
  assert (HC : mcall_path c = B p ++ id /\ (mcall_body c = None <-> m = "GET"%string) /\ (m = "GET" \/ m = "POST")%string /\ forallb path_char (B p) = true /\ has_prefix (B p) (B "/") = true).
  { destruct c; destruct HE as (-> & -> & ->); cbn [mcall_path mcall_body]; rewrite ?app_nil_r; repeat split; auto; try discriminate. }
  destruct HC as (E & HB & HM & HC1 & HC2). split; [|split; assumption].
  set (u' := mkPlain (pl_tls u) (pl_name u) (pl_port u) (pl_path u ++ B p ++ id) []).
  assert (HU' : plain_ok u' = true).
  { unfold plain_ok in *. rewrite !andb_true_iff in *. destruct HU as ((((H1 & H2) & H3) & H4) & H5). subst u'. cbn [pl_name pl_port pl_path]. repeat split; auto.
    - apply orb_true_iff. right. apply orb_true_iff in H4 as [H4|H4].
      + destruct (pl_path u); [|discriminate]. apply has_prefix_spec in HC2 as (r & HC2). apply has_prefix_spec. exists (r ++ id). cbn [app]. rewrite HC2, <- app_assoc. reflexivity.
      + apply has_prefix_spec in H4 as (r & H4). apply has_prefix_spec. exists (r ++ B p ++ id). rewrite H4, <- app_assoc. reflexivity.
    - rewrite !forallb_app, H5, HC1, HI. reflexivity. }
  assert (EQ : mcall_url (write_plain enc_pair u) c = write_plain enc_pair u').
  { unfold mcall_url, write_plain, base_of. rewrite HP, E. unfold u', query_of. cbn [pl_pairs pl_path]. unfold scheme_of, host_of. cbn [pl_tls pl_name pl_port]. rewrite ?app_nil_r, <- ?app_assoc. reflexivity. }
  rewrite EQ, (parse_plain u' HU'). reflexivity.
Qed.
(** At one mint the text of the address and the method tell what is asked, whatever the ids. *)
Definition same_question (c c' : mcall) : Prop := exists m p id m' p' id', endpoint c m p id /\ endpoint c' m' p' id' /\ m = m' /\ p = p' /\ id = id'.
Lemma cons_inv {A} (a b : A) l r : a :: l = b :: r -> a = b /\ l = r. Proof. intro H. split; congruence. Qed.
Theorem C124_distinct mint c c' : mcall_url mint c = mcall_url mint c' -> (mcall_body c = None <-> mcall_body c' = None) -> same_question c c'.
Proof.
  intros H HB. apply app_inv_head in H.
  destruct c, c'; cbn [mcall_path mcall_body] in H, HB; try (exfalso; destruct HB as [HB1 HB2]; (discriminate (HB1 eq_refl) || discriminate (HB2 eq_refl)));
    try (exfalso; cbn [B list_ascii_of_string app] in H; repeat (apply cons_inv in H as [? H]; try discriminate); discriminate);
    try (apply app_inv_head in H; subst); repeat eexists; reflexivity.
Qed.
(** An id is not escaped: with a question mark in it the mint is asked about another one. *)
Theorem C124_id_refuted : exists u c h, plain_ok u = true /\ pl_pairs u = [] /\ c = GetMintQuote (B "a?b") /\ url_parse (mcall_url (write_plain enc_pair u) c) = Some h /\ hu_path h = mcall_path (GetMintQuote (B "a")) /\ hu_query h = B "b".
Proof. exists (mkPlain true (B "m.example") None [] []), (GetMintQuote (B "a?b")). eexists. repeat split; vm_compute; reflexivity. Qed.
(** A mint whose address has a query, which the wallet takes: the endpoint goes into the query. *)
Theorem C124_query_refuted : exists mint h, normalize_http mint = (mint, true) /\ url_parse (mcall_url mint GetKeys) = Some h /\ hu_path h = [] /\ hu_query h = B "a=b/v1/keys".
Proof. exists (B "https://m.example?a=b"). eexists. repeat split; vm_compute; reflexivity. Qed.

(** ** Posting *)
Section Post.
Variable p : post.
(** The whole body: the JSON and a newline; nothing if the data have no JSON. *)
Definition whole : str := match po_text p with Some t => t ++ [byte_of 10] | None => [] end.
(** Invariant *)
Record pinv (s : pstate) : Prop := {
  pv_got : match ps_writer s with WEncode => ps_got s = [] | WWrite l => l <> [] /\ ps_got s ++ l = whole | _ => ps_shut s = true \/ ps_got s = whole end;
  pv_prefix : exists r, ps_got s ++ r = whole;
  pv_eof : ps_eof s = true -> ps_got s = whole /\ ps_writer s = WDone;
  pv_shut : ps_shut s = true <-> exists x, ps_caller s = CEnd x /\ po_url_ok p = true;
  pv_new : po_url_ok p = false -> ps_caller s <> CDo;
  pv_start : (ps_caller s = CNew \/ po_url_ok p = false) -> ps_got s = []
}.
Lemma pinv_reach s : reaches (pstep p) p_start s -> pinv s.
Proof.
  apply invariant.
  - split; cbn; try discriminate; auto; [exists whole; reflexivity|split; [discriminate|intros (x & Q & _); discriminate]].
  - intros a s0 s' [I1 I2 I3 I4 I5 I6] H. destruct s0 as [w c g e sh]. cbn [ps_writer ps_caller ps_got ps_eof ps_shut] in *.
    destruct a as [| | | |n| |st b|]; cbn [pstep ps_writer ps_caller ps_got ps_eof ps_shut] in H.
    + destruct w; try discriminate. injection H as <-. subst g. split; cbn [ps_writer ps_caller ps_got ps_eof ps_shut]; auto.
      * unfold whole. destruct (po_text p) as [t|]; [split; [destruct t; discriminate|reflexivity]|right; reflexivity].
      * intro Q. destruct (I3 Q) as [_ Q2]. discriminate.
    + destruct w as [|l| |]; try discriminate. destruct sh; [|discriminate]. injection H as <-. split; cbn [ps_writer ps_caller ps_got ps_eof ps_shut]; auto. intro Q. destruct (I3 Q) as [_ Q2]. discriminate.
    + destruct w; try discriminate. injection H as <-. split; cbn [ps_writer ps_caller ps_got ps_eof ps_shut]; auto. intro Q. destruct (I3 Q) as [_ Q2]. discriminate.
    + destruct c; try discriminate. injection H as <-. split; cbn [ps_writer ps_caller ps_got ps_eof ps_shut]; auto.
      * split.
        -- intro Q. apply I4 in Q as (x & Q & _). discriminate.
        -- intros (x & Q & Q2). rewrite Q2 in Q. discriminate.
      * intro Q. rewrite Q. discriminate.
    + destruct c; try discriminate. destruct w as [|l| |]; try discriminate. destruct (Nat.eqb_spec n 0) as [->|N]; [discriminate|]. injection H as <-. destruct I1 as [I1 I1'].
      assert (SH : sh = false) by (destruct sh; [|reflexivity]; destruct I4 as [I4 _]; destruct (I4 eq_refl) as (x & Q & _); discriminate). subst sh.
      assert (EQ : (g ++ firstn n l) ++ skipn n l = whole) by (rewrite <- app_assoc, firstn_skipn; exact I1').
      split; cbn [ps_writer ps_caller ps_got ps_eof ps_shut]; auto.
      * destruct (skipn n l) as [|y r]; [right; rewrite app_nil_r in EQ; exact EQ|split; [discriminate|exact EQ]].
      * exists (skipn n l). exact EQ.
      * intro Q. destruct (I3 Q) as [_ Q2]. discriminate.
      * intros [Q|Q]; [discriminate|]. destruct (I5 Q eq_refl).
    + destruct c; try discriminate. destruct w; try discriminate. injection H as <-. split; cbn [ps_writer ps_caller ps_got ps_eof ps_shut]; auto.
      intros _. split; [|reflexivity]. destruct I1 as [Q|Q]; [|exact Q]. apply I4 in Q as (x & Q & _). discriminate.
    + destruct c; try discriminate. injection H as <-. assert (U : po_url_ok p = true) by (destruct (po_url_ok p); [reflexivity|destruct (I5 eq_refl eq_refl)]).
      split; cbn [ps_writer ps_caller ps_got ps_eof ps_shut]; auto.
      * destruct w; auto.
      * split; [intros _; eauto|reflexivity].
      * intros Q. congruence.
      * intros [Q|Q]; [discriminate|congruence].
    + destruct c; try discriminate. injection H as <-. assert (U : po_url_ok p = true) by (destruct (po_url_ok p); [reflexivity|destruct (I5 eq_refl eq_refl)]).
      split; cbn [ps_writer ps_caller ps_got ps_eof ps_shut]; auto.
      * destruct w; auto.
      * split; [intros _; eauto|reflexivity].
      * intros Q. congruence.
      * intros [Q|Q]; [discriminate|congruence].
Qed.
(** What the mint reads is always a beginning of the body, and all of it when it sees the end. Nothing is sent before the request is made. *)
Theorem C124_body s : reaches (pstep p) p_start s -> (exists r, ps_got s ++ r = whole) /\ (ps_eof s = true -> ps_got s = whole) /\ (ps_caller s = CNew -> ps_got s = []).
Proof. intro H. destruct (pinv_reach s H) as [I1 I2 I3 I4 I5 I6]. split; [exact I2|]. split; [intro Q; apply (I3 Q)|auto]. Qed.
(** The end can always be reached while the request is under way, so the body can always be sent whole. *)
Theorem C124_can_send s : reaches (pstep p) p_start s -> ps_caller s = CDo -> exists l s', exec (pstep p) l s = Some s' /\ ps_eof s' = true /\ ps_got s' = whole /\ ps_caller s' = CDo.
Proof.
  intros H HC. destruct (pinv_reach s H) as [I1 I2 I3 I4 I5 I6]. destruct s as [w c g e sh]. cbn [ps_writer ps_caller ps_got ps_eof ps_shut] in *. subst c.
  assert (SH : sh = false) by (destruct sh; [|reflexivity]; destruct I4 as [I4 _]; destruct (I4 eq_refl) as (x & Q & _); discriminate). subst sh.
  assert (D : forall w' g', (w' = WClose \/ w' = WDone) -> g' = whole -> exists l s', exec (pstep p) l (mkPS w' CDo g' e false) = Some s' /\ ps_eof s' = true /\ ps_got s' = whole /\ ps_caller s' = CDo).
  { intros w' g' [->| ->] ->; [exists [PClose; PEof]|exists [PEof]]; eexists; repeat split. }
  assert (R : forall l g', l <> [] -> g' ++ l = whole -> exists k s', exec (pstep p) k (mkPS (WWrite l) CDo g' e false) = Some s' /\ ps_eof s' = true /\ ps_got s' = whole /\ ps_caller s' = CDo).
  { intros l g' N E. destruct (D WClose (g' ++ l)) as (k & s' & K); [auto|exact E|]. exists (PRead (length l) :: k), s'. destruct K as (K & K2). split; [|exact K2]. cbn [exec pstep ps_caller ps_writer].
    destruct l as [|x l]; [contradiction|]. change (Nat.eqb (length (x :: l)) 0) with false. cbv iota. rewrite skipn_all, firstn_all. exact K. }
  destruct w as [|l| |].
  - subst g. destruct (po_text p) as [t|] eqn:T.
    + destruct (R (t ++ [byte_of 10]) []) as (k & s' & K & K2); [destruct t; discriminate|unfold whole; rewrite T; reflexivity|]. exists (PEncode :: k), s'. split; [|exact K2]. cbn [exec pstep ps_writer]. rewrite T. exact K.
    + destruct (D WClose []) as (k & s' & K & K2); [auto|unfold whole; rewrite T; reflexivity|]. exists (PEncode :: k), s'. split; [|exact K2]. cbn [exec pstep ps_writer]. rewrite T. exact K.
  - destruct I1. apply R; assumption.
  - apply D; [auto|]. destruct I1 as [Q|Q]; [discriminate|exact Q].
  - apply D; [auto|]. destruct I1 as [Q|Q]; [discriminate|exact Q].
Qed.
(** When the call has returned, the goroutine that writes ends by itself, after three steps at most, if the address was one. *)
Definition left_steps (w : writer) : nat := match w with WEncode => 3 | WWrite _ => 2 | WClose => 1 | WDone => 0 end.
Theorem C124_released s x l s' : po_url_ok p = true -> reaches (pstep p) p_start s -> ps_caller s = CEnd x -> exec (pstep p) l s = Some s' ->
  length l <= 3 /\ ps_caller s' = CEnd x /\ (ps_writer s' = WDone \/ exists a s2, pstep p a s' = Some s2).
Proof.
  intros U H HC. assert (SH : ps_shut s = true) by (apply (pv_shut _ (pinv_reach s H)); eauto). clear H.
  assert (K : length l <= left_steps (ps_writer s) -> length l <= 3) by (destruct (ps_writer s); cbn [left_steps]; lia).
  assert (G : forall l s s', ps_shut s = true -> ps_caller s = CEnd x -> exec (pstep p) l s = Some s' -> length l <= left_steps (ps_writer s) /\ ps_shut s' = true /\ ps_caller s' = CEnd x).
  { clear. induction l as [|a l IH]; intros s s' SH HC E; cbn [exec] in E; [injection E as <-; split; [cbn; lia|auto]|].
    destruct (pstep p a s) as [s1|] eqn:P; [|discriminate]. destruct s as [w c g e sh]. cbn [ps_writer ps_caller ps_got ps_eof ps_shut] in *. subst.
    destruct a; cbn [pstep ps_writer ps_caller ps_got ps_eof ps_shut] in P; try discriminate; destruct w; try discriminate; injection P as <-; apply IH in E as (E1 & E2 & E3); try reflexivity; cbn [ps_writer left_steps length] in *; (split; [|split; assumption]);
      try lia; destruct (po_text p); cbn [left_steps] in E1; lia. }
  intro E. destruct (G _ _ _ SH HC E) as (G1 & G2 & G3). split; [auto|]. split; [exact G3|]. destruct s' as [w c g e sh]. cbn [ps_writer ps_caller ps_got ps_eof ps_shut] in *. subst.
  destruct w; [right; exists PEncode; eexists; reflexivity|right; exists PWriteFails; eexists; reflexivity|right; exists PClose; eexists; reflexivity|left; reflexivity].
Qed.
(** With an address that is none the call returns, but the goroutine waits for ever for somebody to read. *)
Theorem C124_leak_refuted t : po_url_ok p = false -> po_text p = Some t ->
  (exists s, reaches (pstep p) p_start s /\ ps_caller s = CEnd None /\ ps_writer s <> WDone /\ forall a, pstep p a s = None) /\
  (forall s, reaches (pstep p) p_start s -> ps_writer s <> WDone).
Proof.
  intros U T. split.
  - eexists. split; [exists [PNew; PEncode]; cbn [exec pstep p_start ps_caller ps_writer]; rewrite U, T; reflexivity|]. cbn [ps_caller ps_writer]. split; [reflexivity|]. split; [discriminate|]. intros [| | | |n| |st b|]; reflexivity.
  - intros s H Q. assert (G : (exists l, ps_writer s = WWrite l) \/ ps_writer s = WEncode); [|destruct G as [(l & G)|G]; congruence].
    revert s H Q. assert (I : forall s, reaches (pstep p) p_start s -> ((exists l, ps_writer s = WWrite l) \/ ps_writer s = WEncode) /\ ps_shut s = false /\ ps_caller s <> CDo).
    { apply invariant; [cbn; repeat split; auto; discriminate|]. intros a s s' (I1 & I2 & I3) E. destruct s as [w c g e sh]. cbn [ps_writer ps_caller ps_got ps_eof ps_shut] in *. subst sh.
      destruct a; cbn [pstep ps_writer ps_caller ps_got ps_eof ps_shut] in E; try (destruct c; try discriminate; congruence).
      - destruct w; try discriminate. injection E as <-. cbn. rewrite T. repeat split; eauto.
      - destruct w; discriminate.
      - destruct I1 as [(l & ->)| ->]; discriminate.
      - destruct c; try discriminate. injection E as <-. cbn. rewrite U. repeat split; auto. discriminate. }
    intros s H _. apply (I s H).
Qed.
End Post.
Example C124_example :
  let p := mkPost (Some (B "{}")) true in
  (exists s, exec (pstep p) [PNew; PEncode; PRead 1; PRead 9; PClose; PEof; PAnswer 200 (B "ok")] p_start = Some s /\ ps_got s = B "{}" ++ [byte_of 10] /\ ps_caller s = CEnd (Some (200%Z, B "ok")) /\ ps_writer s = WDone) /\
  (exists s, exec (pstep p) [PNew; PEncode; PRead 1; PFail; PWriteFails; PClose] p_start = Some s /\ ps_got s = B "{" /\ ps_caller s = CEnd None /\ ps_writer s = WDone).
Proof. cbv zeta. split; eexists; (split; [vm_compute; reflexivity|]); repeat split. Qed.
Example C124_endpoint_example : plain_ok (mkPlain true (B "mint.example") (Some (B "3338")) (B "/cashu") []) = true /\
  mcall_url (write_plain enc_pair (mkPlain true (B "mint.example") (Some (B "3338")) (B "/cashu") [])) (GetMeltQuote (B "aB3-x")) = B "https://mint.example:3338/cashu/v1/melt/quote/bolt11/aB3-x".
Proof. split; vm_compute; reflexivity. Qed.

Print Assumptions C124_endpoint.
Print Assumptions C124_distinct.
Print Assumptions C124_id_refuted.
Print Assumptions C124_query_refuted.
Print Assumptions C124_body.
Print Assumptions C124_can_send.
Print Assumptions C124_released.
Print Assumptions C124_leak_refuted.
