(** C105: what a program learns about relays from the events it sees. *)
From Verif Require Import Base FilterModel EventModel Nip19Model StoreModel StoreProofs BlocksModel TrackModel AuthModel HintsProofs Props_Store Props_Blocks.
Import ListNotations.

(** ** A virtual relay is too short to be one or begins with one of these. *)
Definition virtual_start (testing : bool) : list str :=
  [B "wss://feeds.nostr.band"; B "wss://filter.nostr.wine"; B "wss://cache"; B "ws://127.0.0.1"] ++ (if testing then [] else [B "ws://localhost"]).
Definition virtual_relay (testing : bool) (u : str) : Prop := length u < 6 \/ exists p rest, In p (virtual_start testing) /\ u = p ++ rest.
Theorem C105_virtual testing u : is_virtual testing u = true <-> virtual_relay testing u.
Proof.
  unfold is_virtual, virtual_relay. destruct (Nat.ltb_spec (length u) 6) as [L|L]; [split; auto|].
  transitivity (existsb (has_prefix u) (virtual_start testing) = true).
  - unfold virtual_start. destruct testing; cbn [negb andb app existsb]; repeat match goal with |- context [has_prefix u ?p] => destruct (has_prefix u p) end; cbn; split; congruence.
  - rewrite existsb_exists. split.
    + intros (p & I & P). right. apply has_prefix_spec in P as (t & ->). exists p, t. auto.
    + intros [H|(p & t & I & ->)]; [lia|]. exists p. split; [exact I|]. apply has_prefix_app.
Qed.
Print Assumptions C105_virtual.
(** In a test, where local relays should count, the other name of this machine does not. *)
Theorem C105_local_in_tests_refuted : is_virtual true (B "ws://localhost:7777") = false /\ is_virtual true (B "ws://127.0.0.1:7777") = true.
Proof. split; vm_compute; reflexivity. Qed.
Print Assumptions C105_local_in_tests_refuted.

Definition ephemeral (k : Z) : Prop := (20000 <= k < 30000)%Z.
Lemma ephemeral_b k : (k <? 30000)%Z && (k >=? 20000)%Z = true <-> ephemeral k.
Proof. unfold ephemeral. rewrite andb_true_iff, Z.ltb_lt, Z.geb_le. lia. Qed.

Section Spec.
Variable parse_ok : str -> bool.
Variable url_host scheme : str -> option str.
Variable normalize : str -> str.
Variable testing : bool.
(** ** What an event teaches, said without the program: a hint is (author, relay, kind of hint, time). *)
Definition counts (relay : str) (e : event) : Prop := ~ virtual_relay testing relay /\ ~ ephemeral (ev_kind e).
Definition usable (u : str) : Prop := ~ virtual_relay testing u /\ (scheme u = Some (B "ws") \/ scheme u = Some (B "wss")).
(** it was seen there; *)
Definition by_sight (relay : str) (e : event) (h : hsave) : Prop := ~ In (ev_kind e) [0; 3; 10002]%Z /\ h = (ev_pubkey e, relay, 1, ev_created_at e).
(** its author says that they write there, in a relay list of at most twelve tags; *)
Definition by_list (e : event) (h : hsave) : Prop := ev_kind e = 10002%Z /\ length (ev_tags e) <= 12 /\
  exists t u, In t (ev_tags e) /\ nth_error t 0 = Some (B "r") /\ nth_error t 1 = Some u /\ (nth_error t 2 = None \/ nth_error t 2 = Some [] \/ nth_error t 2 = Some (B "write")) /\ h = (ev_pubkey e, normalize u, 2, ev_created_at e).
(** a tag names a person and a relay; *)
Definition by_tag (e : event) (h : hsave) : Prop := ~ In (ev_kind e) [0; 10002]%Z /\
  exists t pk u, In t (ev_tags e) /\ nth_error t 0 = Some (B "p") /\ nth_error t 1 = Some pk /\ nth_error t 2 = Some u /\ valid_pubkey parse_ok pk = true /\ usable u /\ h = (pk, normalize u, 3, ev_created_at e).
(** or the text does, by a code. *)
Definition names (p : pointer) (pk u : str) : Prop :=
  match p with
  | PProfile v => pk = pp_pubkey v /\ exists l, pp_relays v = Some l /\ In u l
  | PEvent v => pk = ep_author v /\ exists l, ep_relays v = Some l /\ In u l
  | PEntity v => pk = en_pubkey v /\ exists l, en_relays v = Some l /\ In u l
  end.
Definition by_text (e : event) (h : hsave) : Prop := ~ In (ev_kind e) [0; 3; 10002]%Z /\
  exists bs b p pk u, parse_blocks url_host (ev_content e) = Ok bs /\ In b bs /\ b_pointer b = Some (BPtr p) /\ names p pk u /\ usable u /\ h = (pk, normalize u, 3, ev_created_at e).
Definition teaches (relay : str) (e : event) (h : hsave) : Prop := counts relay e /\ (by_sight relay e h \/ by_list e h \/ by_tag e h \/ by_text e h).

Lemma usable_b u : good_hint scheme testing u = true <-> usable u.
Proof.
  unfold good_hint, usable. rewrite <- C105_virtual. destruct (is_virtual testing u); [split; [discriminate|intros [H _]; congruence]|]. destruct (scheme u) as [s|]; [|split; [discriminate|intros [_ [H|H]]; discriminate]].
  rewrite orb_true_iff, !seqb_eq. split; [intro H; split; [discriminate|destruct H as [->| ->]; auto]|intros [_ [H|H]]; [right|left]; congruence].
Qed.
Lemma list_tag_spec e t h : In h (list_tag normalize e t) <-> exists u, nth_error t 0 = Some (B "r") /\ nth_error t 1 = Some u /\ (nth_error t 2 = None \/ nth_error t 2 = Some [] \/ nth_error t 2 = Some (B "write")) /\ h = (ev_pubkey e, normalize u, 2, ev_created_at e).
Proof.
  unfold list_tag, LastInRelayList. destruct t as [|k [|u r]]; cbn [nth_error]; [split; [intros []|intros (v & Q & _); discriminate]|split; [intros []|intros (v & _ & Q & _); discriminate]|].
  destruct (seqb_spec k (B "r")) as [->|NK]; cbn [negb]; [|split; [intros []|intros (v & Q & _); congruence]].
  destruct r as [|m r]; cbn [nth_error].
  - split; [intros [<-|[]]; exists u; auto 6|]. intros (v & _ & Q & _ & ->). left. congruence.
  - destruct (seqb_spec m []) as [->|N1]; cbn [orb]; [|destruct (seqb_spec m (B "write")) as [->|N2]].
    1,2: split; [intros [<-|[]]; exists u; auto 6|intros (v & _ & Q & _ & ->); left; congruence].
    split; [intros []|]. intros (v & _ & _ & [Q|[Q|Q]] & _); [discriminate|exfalso; apply N1; congruence|exfalso; apply N2; congruence].
Qed.
Lemma hint_tag_spec e t h : In h (hint_tag parse_ok scheme normalize testing e t) <-> exists pk u, nth_error t 0 = Some (B "p") /\ nth_error t 1 = Some pk /\ nth_error t 2 = Some u /\ valid_pubkey parse_ok pk = true /\ usable u /\ h = (pk, normalize u, 3, ev_created_at e).
Proof.
  unfold hint_tag, LastInHint. destruct t as [|k [|pk [|u r]]]; cbn [nth_error].
  1-3: split; [intros []|intros (a & v & Q1 & Q2 & Q3 & _); discriminate].
  destruct (good_hint scheme testing u) eqn:G; cbn [negb].
  - apply usable_b in G. destruct (seqb_spec k (B "p")) as [->|NK]; cbn [andb]; [destruct (valid_pubkey parse_ok pk) eqn:V|].
    + split; [intros [<-|[]]; exists pk, u; auto 9|]. intros (a & v & _ & Q1 & Q2 & _ & _ & ->). left. congruence.
    + split; [intros []|]. intros (a & v & _ & Q1 & _ & Q2 & _). congruence.
    + split; [intros []|]. intros (a & v & Q & _). congruence.
  - split; [intros []|]. intros (a & v & _ & _ & Q & _ & U & _). assert (u = v) as -> by congruence. apply usable_b in U. congruence.
Qed.
Lemma hints_of_spec e a rs h : In h (hints_of scheme normalize testing e a rs) <-> exists l u, rs = Some l /\ In u l /\ usable u /\ h = (a, normalize u, 3, ev_created_at e).
Proof.
  unfold hints_of, LastInHint. rewrite in_flat_map. split.
  - intros (u & I & H). destruct rs as [l|]; [|destruct I]. destruct (good_hint scheme testing u) eqn:G; [|destruct H]. destruct H as [<-|[]]. exists l, u. apply usable_b in G. auto.
  - intros (l & u & -> & I & U & ->). exists u. split; [exact I|]. apply usable_b in U. rewrite U. left. reflexivity.
Qed.
Lemma hint_block_spec e b h : In h (hint_block scheme normalize testing e b) <-> exists p pk u, b_pointer b = Some (BPtr p) /\ names p pk u /\ usable u /\ h = (pk, normalize u, 3, ev_created_at e).
Proof.
  unfold hint_block. destruct (b_pointer b) as [[p|x]|]; [|split; [intros []|intros (p & pk & u & Q & _); discriminate]..].
  split.
  - intro H. destruct p as [v|v|v]; apply hints_of_spec in H as (l & u & R & I & U & ->).
    + exists (PProfile v), (pp_pubkey v), u. cbn [names]. eauto 9.
    + exists (PEvent v), (ep_author v), u. cbn [names]. eauto 9.
    + exists (PEntity v), (en_pubkey v), u. cbn [names]. eauto 9.
  - intros (q & pk & u & Q & N & U & ->). assert (p = q) as <- by congruence. destruct p as [v|v|v]; cbn [names] in N; destruct N as (-> & l & R & I); apply hints_of_spec; eauto 9.
Qed.
Lemma skipped_b relay e : skipped testing relay e = false <-> counts relay e.
Proof. unfold skipped, counts. rewrite orb_false_iff, <- C105_virtual, <- ephemeral_b. destruct (is_virtual testing relay), ((ev_kind e <? 30000)%Z && (ev_kind e >=? 20000)%Z); split; intuition congruence. Qed.

(** ** Exactly those hints are saved, and no others, unless the text crashes the parser. *)
Theorem C105_exact relay e hs h : track_event_hints parse_ok url_host scheme normalize testing relay e = Ok hs -> (In h hs <-> teaches relay e h).
Proof.
  unfold track_event_hints, teaches. destruct (skipped testing relay e) eqn:S.
  { intro H. injection H as <-. split; [intros []|]. intros [C _]. apply skipped_b in C. congruence. }
  apply skipped_b in S. unfold track_hints. destruct (Z.eqb_spec (ev_kind e) 0) as [K0|K0].
  { intro H. injection H as <-. split; [intros []|]. intros [_ [Q|[Q|[Q|Q]]]]; destruct Q as [N _]; [|congruence| |]; rewrite K0 in N; exfalso; apply N; cbn; auto. }
  destruct (Z.eqb_spec (ev_kind e) 10002) as [K1|K1].
  { assert (X : forall r, (by_sight relay e r \/ by_list e r \/ by_tag e r \/ by_text e r) <-> by_list e r).
    { intro r. split; [|auto]. intros [Q|[Q|[Q|Q]]]; [|exact Q| |]; destruct Q as [N _]; rewrite K1 in N; exfalso; apply N; cbn; auto. }
    rewrite X. unfold by_list. destruct (Nat.ltb_spec 12 (length (ev_tags e))) as [L|L]; intro H; injection H as <-.
    - split; [intros []|]. intros (_ & _ & L' & _). lia.
    - rewrite in_flat_map. split.
      + intros (t & I & H). apply list_tag_spec in H as (u & H). split; [exact S|]. split; [exact K1|]. split; [exact L|]. exists t, u. tauto.
      + intros (_ & _ & _ & t & u & I & H). exists t. split; [exact I|]. apply list_tag_spec. exists u. tauto. }
  assert (NL : ~ by_list e h) by (intros [Q _]; contradiction).
  assert (ND : ~ In (ev_kind e) [0; 10002]%Z) by (intros [Q|[Q|[]]]; congruence).
  destruct (Z.eqb_spec (ev_kind e) 3) as [K3|K3].
  { intro H. injection H as <-. rewrite in_flat_map. split.
    - intros (t & I & H). apply hint_tag_spec in H as (pk & u & H). split; [exact S|]. right. right. left. split; [exact ND|]. exists t, pk, u. tauto.
    - intros [_ [Q|[Q|[Q|Q]]]]; [exfalso; destruct Q as [N _]; rewrite K3 in N; apply N; cbn; auto|contradiction| |exfalso; destruct Q as [N _]; rewrite K3 in N; apply N; cbn; auto].
      destruct Q as (_ & t & pk & u & I & H). exists t. split; [exact I|]. apply hint_tag_spec. exists pk, u. tauto. }
  assert (NE : ~ In (ev_kind e) [0; 3; 10002]%Z) by (intros [Q|[Q|[Q|[]]]]; congruence).
  destruct (parse_blocks url_host (ev_content e)) as [bs| |] eqn:P; try discriminate. cbn [obind]. intro H. injection H as <-. cbn [In]. rewrite in_app_iff, !in_flat_map. split.
  - intros [<-|[(t & I & H)|(b & I & H)]]; (split; [exact S|]).
    + left. split; [exact NE|reflexivity].
    + right. right. left. split; [exact ND|]. apply hint_tag_spec in H as (pk & u & H). exists t, pk, u. tauto.
    + right. right. right. split; [exact NE|]. apply hint_block_spec in H as (p & pk & u & H). exists bs, b, p, pk, u. tauto.
  - intros [_ [Q|[Q|[Q|Q]]]].
    + left. destruct Q as [_ ->]. reflexivity.
    + contradiction.
    + right. left. destruct Q as (_ & t & pk & u & I & H). exists t. split; [exact I|]. apply hint_tag_spec. exists pk, u. tauto.
    + right. right. destruct Q as (_ & bs' & b & p & pk & u & P' & I & H). assert (bs = bs') as <- by congruence. exists b. split; [exact I|]. apply hint_block_spec. exists p, pk, u. tauto.
Qed.
(** With the relays of the events as well, the hints are the same. *)
Theorem C105_same_hints relay e : track_event_hints parse_ok url_host scheme normalize testing relay e = obind (track_event parse_ok url_host scheme normalize testing relay e) (fun '(hs, _) => Ok hs).
Proof. unfold track_event_hints, track_event. destruct (skipped testing relay e); [reflexivity|]. destruct (track_hints _ _ _ _ _ relay e); reflexivity. Qed.
(** The tracker fails only where the parser of the text does. *)
Theorem C105_no_crash_partial relay e : parse_blocks url_host (ev_content e) <> Panic -> parse_blocks url_host (ev_content e) <> Err -> exists r, track_event parse_ok url_host scheme normalize testing relay e = Ok r.
Proof.
  intros NP NE. unfold track_event, track_hints. destruct (skipped testing relay e); [eexists; reflexivity|]. destruct (ev_kind e =? 0)%Z; [eexists; reflexivity|]. destruct (ev_kind e =? 10002)%Z; [destruct (Nat.ltb _ _); eexists; reflexivity|].
  destruct (ev_kind e =? 3)%Z; [eexists; reflexivity|]. destruct (parse_blocks url_host (ev_content e)); [eexists; reflexivity|contradiction|contradiction].
Qed.
(** No virtual relay is saved, provided normalising never makes one; and relay lists, which are not checked, are left out. *)
Theorem C105_no_virtual_partial relay e hs a u k t : (forall x, is_virtual testing (normalize x) = is_virtual testing x) -> ev_kind e <> 10002%Z ->
  track_event_hints parse_ok url_host scheme normalize testing relay e = Ok hs -> In (a, u, k, t) hs -> ~ virtual_relay testing u.
Proof.
  intros NV K H I. apply (C105_exact relay e hs _ H) in I as [[C _] [[_ Q]|[[Q _]|[Q|Q]]]].
  - assert (u = relay) as -> by congruence. exact C.
  - contradiction.
  - destruct Q as (_ & t' & pk & x & _ & _ & _ & _ & _ & [U _] & Q). assert (u = normalize x) as -> by congruence. rewrite <- C105_virtual in *. rewrite NV. exact U.
  - destruct Q as (_ & bs & b & p & pk & x & _ & _ & _ & _ & [U _] & Q). assert (u = normalize x) as -> by congruence. rewrite <- C105_virtual in *. rewrite NV. exact U.
Qed.

(** ** A program that runs: what is in the hints afterwards. *)
Definition learned (x : sighting) (pk relay : str) (key : nat) (t : Z) : Prop :=
  match x with
  | SeenEvent now u e => exists c, teaches u e (pk, relay, key, c) /\ t = Z.min c now
  | SeenAgain _ _ => False
  | Asked now u author kind => ~ virtual_relay testing u /\ ~ ephemeral kind /\ ~ In kind [0; 3; 10002]%Z /\ pk = author /\ relay = u /\ key = 0 /\ t = now
  end.
Lemma attempt_spec u author kind now h : In h (track_attempt testing u author kind now) <-> ~ virtual_relay testing u /\ ~ ephemeral kind /\ ~ In kind [0; 3; 10002]%Z /\ h = (author, u, 0, now).
Proof.
  unfold track_attempt, LastFetchAttempt. rewrite <- C105_virtual, <- ephemeral_b. destruct (is_virtual testing u); [split; [intros []|intros [H _]; congruence]|]. destruct ((kind <? 30000)%Z && (kind >=? 20000)%Z); [split; [intros []|intros (_ & H & _); congruence]|].
  destruct (Z.eqb_spec kind 0) as [->|A]; [split; [intros []|intros (_ & _ & H & _); exfalso; apply H; cbn; auto]|].
  destruct (Z.eqb_spec kind 10002) as [->|C]; [split; [intros []|intros (_ & _ & H & _); exfalso; apply H; cbn; auto]|].
  destruct (Z.eqb_spec kind 3) as [->|D]; [split; [intros []|intros (_ & _ & H & _); exfalso; apply H; cbn; auto]|].
  cbn [orb In]. split; [intros [<-|[]]; repeat split; try congruence; intros [Q|[Q|[Q|[]]]]; congruence|intros (_ & _ & _ & ->); left; reflexivity].
Qed.
Lemma track_all_spec l saves rs : track_all parse_ok url_host scheme normalize testing l = Ok (saves, rs) -> forall pk relay key t, (exists now c, In (now, pk, relay, key, c) saves /\ t = Z.min c now) <-> exists x, In x l /\ learned x pk relay key t.
Proof.
  revert saves rs. induction l as [|x l IH]; intros saves rs H pk relay key t; cbn [track_all] in H.
  - injection H as <- <-. split; [intros (n & c & [] & _)|intros (x & [] & _)].
  - match type of H with obind ?a _ = _ => destruct a as [[hs r1]| |] eqn:X; try discriminate end. cbn [obind] in H.
    destruct (track_all parse_ok url_host scheme normalize testing l) as [[hs' r2]| |] eqn:R; try discriminate. cbn [obind] in H. assert (saves = hs ++ hs') as -> by congruence.
    assert (HX : (exists now c, In (now, pk, relay, key, c) hs /\ t = Z.min c now) <-> learned x pk relay key t).
    { clear IH R H. destruct x as [now u e|u i|now u author kind]; cbn [learned].
      - pose proof (C105_same_hints u e) as SH. destruct (track_event parse_ok url_host scheme normalize testing u e) as [[ts r]| |] eqn:T; try discriminate. cbn [obind] in SH, X. assert (hs = map (stamp now) ts) as -> by congruence. pose proof (fun h => C105_exact u e ts h SH) as EX. split.
        + intros (n & c & I & ->). apply in_map_iff in I as ([[[a v] k] c'] & Q & I). cbn [stamp] in Q. apply EX in I. assert (n = now) as -> by congruence. exists c. split; [|reflexivity]. assert ((pk, relay, key, c) = (a, v, k, c')) as -> by congruence. exact I.
        + intros (c & I & ->). exists now, c. split; [|reflexivity]. apply in_map_iff. exists (pk, relay, key, c). split; [reflexivity|]. apply EX, I.
      - assert (hs = []) as -> by congruence. split; [intros (n & c & [] & _)|intros []].
      - assert (hs = map (stamp now) (track_attempt testing u author kind now)) as -> by congruence. split.
        + intros (n & c & I & ->). apply in_map_iff in I as ([[[a v] k] c'] & Q & I). cbn [stamp] in Q. apply attempt_spec in I as (V & E & K & I). assert (n = now /\ c = now) as [-> ->] by (split; congruence). repeat split; try assumption; try congruence. lia.
        + intros (V & E & K & -> & -> & -> & ->). exists now, now. split; [|lia]. apply in_map_iff. exists (author, u, 0, now). split; [reflexivity|]. apply attempt_spec. auto. }
    specialize (IH hs' r2 eq_refl pk relay key t). split.
    + intros (n & c & I & E). apply in_app_or in I as [I|I].
      * exists x. split; [left; reflexivity|]. apply HX. eauto.
      * destruct (proj1 IH) as (y & I' & L); [eauto|]. exists y. split; [right; exact I'|exact L].
    + intros (y & [<-|I] & L).
      * apply HX in L as (n & c & I & E). exists n, c. split; [apply in_or_app; left; exact I|exact E].
      * destruct (proj2 IH) as (n & c & I' & E); [eauto|]. exists n, c. split; [apply in_or_app; right; exact I'|exact E].
Qed.
Definition times_ok (x : sighting) : Prop := match x with SeenEvent now _ e => (0 <= now)%Z /\ (0 <= ev_created_at e)%Z | Asked now _ _ _ => (0 <= now)%Z | SeenAgain _ _ => True end.
Lemma track_all_sane l saves rs : Forall times_ok l -> track_all parse_ok url_host scheme normalize testing l = Ok (saves, rs) -> Forall sane saves.
Proof.
  revert saves rs. induction l as [|x l IH]; intros saves rs F H; cbn [track_all] in H; [injection H as <- <-; constructor|].
  inversion F as [|y m F1 F2]; subst. match type of H with obind ?a _ = _ => destruct a as [[hs r1]| |] eqn:X; try discriminate end. cbn [obind] in H.
  destruct (track_all parse_ok url_host scheme normalize testing l) as [[hs' r2]| |] eqn:R; try discriminate. cbn [obind] in H. assert (saves = hs ++ hs') as -> by congruence. apply Forall_app. split; [|eapply IH; eauto]. clear IH R H.
  apply Forall_forall. intros [[[[n a] v] k] c] I. destruct x as [now u e|u i|now u author kind]; cbn [times_ok] in F1.
  - pose proof (C105_same_hints u e) as SH. destruct (track_event parse_ok url_host scheme normalize testing u e) as [[ts r]| |] eqn:T; try discriminate. cbn [obind] in SH, X. assert (hs = map (stamp now) ts) as -> by congruence.
    apply in_map_iff in I as ([[[a' v'] k'] c'] & Q & I). cbn [stamp] in Q. apply (C105_exact u e ts _ SH) in I as [_ I]. assert (n = now /\ k = k' /\ c = c') as (-> & -> & ->) by (repeat split; congruence). cbn [sane].
    destruct I as [[_ I]|[(_ & _ & t & w & _ & _ & _ & _ & I)|[(_ & t & pk & w & _ & _ & _ & _ & _ & _ & I)|(_ & bs & b & p & pk & w & _ & _ & _ & _ & _ & I)]]]; assert (c' = ev_created_at e) as -> by congruence; (split; [|lia]);
      [assert (k' = 1) as -> by congruence|assert (k' = 2) as -> by congruence|assert (k' = 3) as -> by congruence|assert (k' = 3) as -> by congruence]; lia.
  - assert (hs = []) as -> by congruence. destruct I.
  - assert (hs = map (stamp now) (track_attempt testing u author kind now)) as -> by congruence. apply in_map_iff in I as ([[[a' v'] k'] c'] & Q & I). cbn [stamp] in Q. apply attempt_spec in I as (_ & _ & _ & I). assert (n = now /\ k = 0 /\ c = now) as (-> & -> & ->) by (repeat split; congruence). cbn [sane]. lia.
Qed.
Definition to_saves (l : list saved_op) : list hop := map (fun '(now, pk, relay, key, ts) => HSave now pk relay key ts) l.
Lemma saves_of_to l : saves_of (to_saves l) = l.
Proof. unfold saves_of, to_saves. induction l as [|[[[[n a] u] k] c] l IH]; [reflexivity|]. cbn [map flat_map app]. rewrite IH. reflexivity. Qed.
Lemma newest_max pk relay key ops : (forall now c, In (now, pk, relay, key, c) ops -> (Z.min c now <= newest pk relay key ops)%Z) /\ (newest pk relay key ops = 0%Z \/ exists now c, In (now, pk, relay, key, c) ops /\ newest pk relay key ops = Z.min c now).
Proof.
  unfold newest. induction ops as [|[[[[n a] u] k] c] ops [IH1 IH2]]; [split; [intros now c []|auto]|]. cbn [filter same_hint]. destruct (seqb a pk && seqb u relay && Nat.eqb k key) eqn:S.
  - apply andb_true_iff in S as [S S3]. apply andb_true_iff in S as [S1 S2]. apply seqb_eq in S1, S2. apply Nat.eqb_eq in S3. subst a u k. cbn [map fold_right time_of]. split.
    + intros now c0 [Q|I]; [assert (n = now /\ c = c0) as [-> ->] by (split; congruence); lia|]. specialize (IH1 now c0 I). lia.
    + set (m := fold_right Z.max 0%Z (map time_of (filter (same_hint pk relay key) ops))) in *. destruct (Z.max_spec (Z.min c n) m) as [[_ E]|[_ E]].
      * rewrite E. destruct IH2 as [Z|(now & c0 & I & Q)]; [left; exact Z|]. right. exists now, c0. split; [right; exact I|exact Q].
      * rewrite E. right. exists n, c. split; [left; reflexivity|reflexivity].
  - split.
    + intros now c0 [Q|I]; [|apply IH1, I]. exfalso. assert (a = pk /\ u = relay /\ k = key) as (-> & -> & ->) by (repeat split; congruence). rewrite !seqb_refl, Nat.eqb_refl in S. discriminate.
    + destruct IH2 as [Z|(now & c0 & I & Q)]; [left; exact Z|]. right. exists now, c0. split; [right; exact I|exact Q].
Qed.
(** The time kept for an author, a relay and a kind of hint is the latest that any sighting taught, none of them beyond the clock; 0 when
    there is none. *)
Theorem C105_newest score sort l saves rs db pk relay key : sort_law sort -> Forall times_ok l -> track_all parse_ok url_host scheme normalize testing l = Ok (saves, rs) -> memh_run score sort (to_saves saves) memdb_init = Ok db -> key < 4 ->
  let kept := memh_time db pk relay key in
  (forall x t, In x l -> learned x pk relay key t -> (t <= kept)%Z) /\ (kept = 0%Z \/ exists x, In x l /\ learned x pk relay key kept).
Proof.
  intros SL F T H K kept. assert (E : kept = newest pk relay key saves).
  { unfold kept. rewrite (C59_memory_newest score sort (to_saves saves) db pk relay key SL); [rewrite saves_of_to; reflexivity| |exact H|exact K]. rewrite saves_of_to. eapply track_all_sane; eassumption. }
  rewrite E. destruct (newest_max pk relay key saves) as [M1 M2]. pose proof (track_all_spec l saves rs T pk relay key) as TS. split.
  - intros x t I L. destruct (proj2 (TS t)) as (now & c & I' & ->); [eauto|]. apply M1, I'.
  - destruct M2 as [Z|(now & c & I & Q)]; [left; exact Z|]. right. destruct (proj1 (TS (Z.min c now))) as (x & I' & L); [eauto|]. exists x. split; [exact I'|]. rewrite Q. exact L.
Qed.
(** The saves cannot fail. *)
Lemma memh_run_saves score sort saves db : exists db', memh_run score sort (to_saves saves) db = Ok db'.
Proof. revert db. induction saves as [|[[[[n a] u] k] c] l IH]; intro db; [eexists; reflexivity|]. cbn [to_saves map memh_run]. apply IH. Qed.

(** ** The relays of events: no record comes to be for an event that is ephemeral, a profile or a relay list, or that only virtual relays have. *)
Definition recorded (x : sighting) (b : str) : Prop :=
  match x with SeenEvent _ u e => counts u e /\ ~ In (ev_kind e) [0; 10002]%Z /\ exists b', hex_decode (ev_id e) = Some b' /\ firstn 8 b' = firstn 8 b | _ => False end.
Lemma track_none id relay only m b : assoc (relay_key b) m = None -> (only = true \/ ~ exists b', hex_decode id = Some b' /\ firstn 8 b' = firstn 8 b) -> assoc (relay_key b) (track id relay only m) = None.
Proof.
  intros A O. unfold track. destruct (hex_decode id) as [b'|] eqn:D; [|exact A]. destruct (Nat.ltb (length b') 8); [exact A|].
  destruct (seqb_spec (relay_key b) (relay_key b')) as [Q|Q].
  - rewrite <- Q, A. destruct only; [exact A|]. exfalso. destruct O as [O|O]; [discriminate|]. apply O. exists b'. split; [reflexivity|]. unfold relay_key in Q. apply app_inv_head in Q. symmetry. exact Q.
  - destruct (assoc (relay_key b') m) as [d|]; [destruct (smem _ _); [exact A|]|destruct only; [exact A|]]; rewrite assoc_mset; (destruct (seqb_spec (relay_key b) (relay_key b')); [contradiction|exact A]).
Qed.
Lemma track_run_app a b m : track_run (a ++ b) m = track_run b (track_run a m).
Proof. revert m. induction a as [|[[i u] o] a IH]; intro m; [reflexivity|]. cbn [app track_run]. apply IH. Qed.
Theorem C105_unrecorded l saves rs id b : track_all parse_ok url_host scheme normalize testing l = Ok (saves, rs) -> hex_decode id = Some b -> 8 <= length b -> (forall x, In x l -> ~ recorded x b) -> get_event_relays id (track_run rs []) = Ok [].
Proof.
  intros T D L N. assert (A : forall m, assoc (relay_key b) m = None -> assoc (relay_key b) (track_run rs m) = None).
  { clear D L. revert saves rs T. induction l as [|x l IH]; intros saves rs H m A; cbn [track_all] in H; [injection H as <- <-; exact A|].
    match type of H with obind ?a _ = _ => destruct a as [[hs r1]| |] eqn:X; try discriminate end. cbn [obind] in H.
    destruct (track_all parse_ok url_host scheme normalize testing l) as [[hs' r2]| |] eqn:R; try discriminate. cbn [obind] in H. assert (rs = r1 ++ r2) as -> by congruence. rewrite track_run_app.
    refine (IH _ hs' r2 eq_refl _ _); [intros y I; apply N; right; exact I|]. specialize (N x (or_introl eq_refl)). clear IH R H. destruct x as [now u e|u i|now u author kind].
    - cbn [recorded] in N. unfold track_event in X. destruct (skipped testing u e) eqn:S.
      + cbn [obind] in X. assert (r1 = []) as -> by congruence. exact A.
      + destruct (track_hints parse_ok url_host scheme normalize testing u e) as [ts| |]; try discriminate. cbn [obind] in X.
        assert (r1 = if negb (ev_kind e =? 0)%Z && negb (ev_kind e =? 10002)%Z then [(ev_id e, u, false)] else []) as -> by congruence. destruct (Z.eqb_spec (ev_kind e) 0) as [E0|E0]; [exact A|]. destruct (Z.eqb_spec (ev_kind e) 10002) as [E1|E1]; [exact A|].
        cbn [negb andb track_run]. apply track_none; [exact A|]. right. intro Q. apply N. split; [apply skipped_b, S|]. split; [intros [Z|[Z|[]]]; congruence|exact Q].
    - assert (r1 = track_duplicate testing u i) as -> by congruence. unfold track_duplicate. destruct (is_virtual testing u); [exact A|]. cbn [track_run]. apply track_none; [exact A|]. left. reflexivity.
    - assert (r1 = []) as -> by congruence. exact A. }
  unfold get_event_relays. rewrite D. destruct (Nat.ltb_spec (length b) 8); [lia|]. rewrite A; reflexivity.
Qed.
(** And no virtual relay is ever recorded for one. *)
Theorem C105_real_relays l saves rs id u o : track_all parse_ok url_host scheme normalize testing l = Ok (saves, rs) -> In (id, u, o) rs ->
  ~ virtual_relay testing u /\ exists x, In x l /\ match x with SeenEvent _ v e => v = u /\ ev_id e = id /\ o = false | SeenAgain v i => v = u /\ i = id /\ o = true | Asked _ _ _ _ => False end.
Proof.
  revert saves rs. induction l as [|x l IH]; intros saves rs H I; cbn [track_all] in H; [injection H as <- <-; destruct I|].
  match type of H with obind ?a _ = _ => destruct a as [[hs r1]| |] eqn:X; try discriminate end. cbn [obind] in H.
  destruct (track_all parse_ok url_host scheme normalize testing l) as [[hs' r2]| |] eqn:R; try discriminate. cbn [obind] in H. assert (rs = r1 ++ r2) as -> by congruence. apply in_app_or in I as [I|I].
  - clear IH R H. destruct x as [now v e|v i|now v author kind].
    + unfold track_event in X. destruct (skipped testing v e) eqn:S; [assert (r1 = []) as -> by (cbn [obind] in X; congruence); destruct I|]. destruct (track_hints parse_ok url_host scheme normalize testing v e) as [ts| |]; try discriminate. cbn [obind] in X.
      assert (r1 = if negb (ev_kind e =? 0)%Z && negb (ev_kind e =? 10002)%Z then [(ev_id e, v, false)] else []) as -> by congruence. destruct (_ && _) in I; [|destruct I]. destruct I as [Q|[]]. apply skipped_b in S as [V _]. assert (u = v) as -> by congruence. split; [exact V|]. exists (SeenEvent now v e). split; [left; reflexivity|]. repeat split; congruence.
    + assert (r1 = track_duplicate testing v i) as -> by congruence. unfold track_duplicate in I. destruct (is_virtual testing v) eqn:V; [destruct I|]. destruct I as [Q|[]]. assert (u = v) as -> by congruence. split; [rewrite <- C105_virtual; congruence|]. exists (SeenAgain v i). split; [left; reflexivity|]. repeat split; congruence.
    + assert (r1 = []) as -> by congruence. destruct I.
  - destruct (IH hs' r2 eq_refl I) as (V & y & I' & Y). split; [exact V|]. exists y. split; [right; exact I'|exact Y].
Qed.
End Spec.
Print Assumptions C105_exact.
Print Assumptions C105_same_hints.
Print Assumptions C105_no_crash_partial.
Print Assumptions C105_no_virtual_partial.
Print Assumptions C105_newest.
Print Assumptions C105_unrecorded.
Print Assumptions C105_real_relays.

(** ** A case. *)
Definition demo_scheme (s : str) : option str := if has_prefix s (B "wss://") then Some (B "wss") else if has_prefix s (B "ws://") then Some (B "ws") else None.
Definition demo_trim (s : str) : str := match rev s with c :: r => if ceqb c "/"%char then rev r else s | [] => s end.
Definition alice : str := hex_encode (repeat (byte_of 17) 32).
Definition carol : str := hex_encode (repeat (byte_of 34) 32).
Definition note_by (pk : str) (t k : Z) (tags : list tag) (content : str) : event := mkEvent (hex_encode (repeat (byte_of 1) 32)) pk t k tags content [].
Definition told : event := note_by alice 50 1 [[B "p"; carol; B "wss://there/"]; [B "p"; carol; B "http://not"]; [B "e"; carol; B "wss://not"]] (B "hi").
Definition listed : event := note_by alice 60 10002 [[B "r"; B "wss://mine/"]; [B "r"; B "wss://in"; B "read"]; [B "r"; B "wss://out"; B "write"]] [].
Example C105_example :
  track_event (fun _ => true) demo_host demo_scheme demo_trim false (B "wss://here") told = Ok ([(alice, B "wss://here", 1, 50%Z); (carol, B "wss://there", 3, 50%Z)], [(ev_id told, B "wss://here", false)]) /\
  track_event (fun _ => true) demo_host demo_scheme demo_trim false (B "wss://here") listed = Ok ([(alice, B "wss://mine", 2, 60%Z); (alice, B "wss://out", 2, 60%Z)], []).
Proof. split; vm_compute; reflexivity. Qed.
Example C105_run_example : exists saves rs db, let l := [SeenEvent 55 (B "wss://here") told; Asked 70 (B "wss://here") alice 1; SeenAgain (B "wss://also") (ev_id told); SeenEvent 59 (B "wss://here") listed] in
  Forall times_ok l /\ track_all (fun _ => true) demo_host demo_scheme demo_trim false l = Ok (saves, rs) /\ memh_run demo_score isort (to_saves saves) memdb_init = Ok db /\
  memh_time db alice (B "wss://here") 1 = 50%Z /\ memh_time db alice (B "wss://here") 0 = 70%Z /\ memh_time db alice (B "wss://out") 2 = 59%Z /\ get_event_relays (ev_id told) (track_run rs []) = Ok [B "wss://here"; B "wss://also"].
Proof. do 3 eexists. cbn zeta. split; [repeat constructor; cbn; lia|]. split; [vm_compute; reflexivity|]. split; [vm_compute; reflexivity|]. repeat split; vm_compute; reflexivity. Qed.

(** ** What goes wrong. Any event whose text crashes the parser crashes the program that tracks it. *)
Theorem C105_crash_refuted : exists relay e, track_event (fun _ => true) demo_host demo_scheme demo_trim false relay e = Panic.
Proof. exists (B "wss://here"), (note_by alice 50 1 [] glued_text). vm_compute. reflexivity. Qed.
Print Assumptions C105_crash_refuted.
(** A relay list teaches virtual relays, and addresses that are none: for what cannot be parsed the empty relay is saved. *)
Theorem C105_virtual_in_list_refuted parse_ok url_host scheme normalize : normalize (B "wss://cache2.primal.net") = B "wss://cache2.primal.net" ->
  exists relay e u hs, virtual_relay false u /\ track_event_hints parse_ok url_host scheme normalize false relay e = Ok hs /\ In (ev_pubkey e, u, 2, ev_created_at e) hs.
Proof.
  intro N. exists (B "wss://here"), (note_by alice 50 10002 [[B "r"; B "wss://cache2.primal.net"]] []), (B "wss://cache2.primal.net"), [(alice, normalize (B "wss://cache2.primal.net"), 2, 50%Z)]. split; [|split].
  - apply C105_virtual. vm_compute. reflexivity.
  - reflexivity.
  - rewrite N. left. reflexivity.
Qed.
Print Assumptions C105_virtual_in_list_refuted.
Theorem C105_empty_relay_refuted parse_ok url_host scheme parse trim lower : parse (trim (B "wss://[")) = None ->
  exists relay e, ev_kind e = 10002%Z /\ track_event_hints parse_ok url_host scheme (normalize_url parse trim lower) false relay e = Ok [(ev_pubkey e, [], 2, ev_created_at e)].
Proof.
  intro P. exists (B "wss://here"), (note_by alice 50 10002 [[B "r"; B "wss://["]] []). split; [reflexivity|]. assert (N : normalize_url parse trim lower (B "wss://[") = []) by (unfold normalize_url; rewrite P; reflexivity).
  rewrite <- N. reflexivity.
Qed.
Print Assumptions C105_empty_relay_refuted.
(** A hint is tested before it is normalised: in capitals a virtual relay passes, and then it is saved in small letters. *)
Theorem C105_virtual_hint_refuted parse_ok url_host scheme parse trim lower : valid_pubkey parse_ok carol = true -> scheme (B "wss://Cache.example") = Some (B "wss") -> trim (B "wss://Cache.example") = B "wss://Cache.example" ->
  parse (B "wss://Cache.example") = Some (mkUrl (B "wss") (B "Cache.example") [] [] []) -> lower (B "Cache.example") = B "cache.example" ->
  exists relay e hs u, virtual_relay false u /\ ev_kind e = 3%Z /\ track_event_hints parse_ok url_host scheme (normalize_url parse trim lower) false relay e = Ok hs /\ In (carol, u, 3, ev_created_at e) hs.
Proof.
  intros V S T P Lw. exists (B "wss://here"), (note_by alice 50 3 [[B "p"; carol; B "wss://Cache.example"]] []). do 2 eexists. split; [apply C105_virtual; instantiate (1 := B "wss://cache.example"); vm_compute; reflexivity|]. split; [reflexivity|].
  unfold track_event_hints. replace (skipped false _ _) with false by (vm_compute; reflexivity). unfold track_hints. cbn [note_by ev_kind ev_tags].
  change ((3 =? 0)%Z) with false. change ((3 =? 10002)%Z) with false. change ((3 =? 3)%Z) with true. cbn [flat_map hint_tag]. unfold good_hint. replace (is_virtual false (B "wss://Cache.example")) with false by (vm_compute; reflexivity). rewrite S, V.
  split; [reflexivity|]. replace (seqb (B "wss") (B "wss") || seqb (B "wss") (B "ws")) with true by reflexivity. replace (seqb (B "p") (B "p") && true) with true by reflexivity. cbn [negb app In ev_created_at]. left. f_equal. f_equal. f_equal.
  unfold normalize_url. destruct (B "wss://Cache.example") as [|c r] eqn:E; [discriminate|]. rewrite T, P. unfold settle, swap_port. cbn [fu_port fu_protocol fu_host fu_path fu_query]. replace (Nat.ltb 5 (length (B "wss"))) with false by reflexivity. cbn [fu_port fu_protocol fu_host fu_path fu_query]. rewrite Lw. vm_compute. reflexivity.
Qed.
Print Assumptions C105_virtual_hint_refuted.
(** A code for an event that does not say whose it is teaches a relay of nobody. *)
Definition orphan_text : str := B "nostr:" ++ or_empty (to_code (B "nevent") (write_tlv TLVDefault (repeat (byte_of 3) 32) ++ write_tlv TLVRelay (B "wss://there"))).
Theorem C105_nobody_refuted : exists relay e hs t, track_event_hints (fun _ => true) demo_host demo_scheme demo_trim false relay e = Ok hs /\ In ([], B "wss://there", 3, t) hs.
Proof. exists (B "wss://here"), (note_by alice 50 1 [] orphan_text). do 2 eexists. split; [vm_compute; reflexivity|]. right. left. reflexivity. Qed.
Print Assumptions C105_nobody_refuted.
