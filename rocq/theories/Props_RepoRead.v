(** C123: reading what was published about a repository, and where a person reads private messages. *)
From Verif Require Import Base EventModel TagsModel FilterModel FilterProofs Nip19Model StructModel Props_Struct Props_Filter RepoReadModel.
Import ListNotations.
Local Open Scope Z_scope.

(** ** Specification *)
(** The event has a tag with this name and this value. *)
Definition tagged (e : event) (k v : str) : Prop := exists rest, In (k :: v :: rest) (ev_tags e).
(** The name of the announced repository: its first "d" tag with a value. *)
Definition first_d (ts : list tag) (v : str) : Prop :=
  exists pre rest post, ts = pre ++ (B "d" :: v :: rest) :: post /\ Forall (fun t => forall x r, t <> B "d" :: x :: r) pre.
Definition no_d (ts : list tag) : Prop := Forall (fun t => forall x r, t <> B "d" :: x :: r) ts.
(** A store that gives exactly the stored events the query is about (C07). *)
Definition answers (query : nfilter -> list event) (stored : list event) : Prop :=
  forall f e, In e (query f) <-> In e stored /\ nip01_match f e.
Definition is_state_of (name : str) (e : event) : Prop := ev_kind e = 30618 /\ tagged e (B "d") name.
Definition is_patch_for (owner name : str) (e : event) : Prop := ev_kind e = 1617 /\ tagged e (B "a") (B "30617:" ++ owner ++ B ":" ++ name).

Lemma get_d_first ts v : first_d ts v -> get_d ts = v.
Proof.
  intros (pre & rest & post & -> & F). induction F as [|t pre N F IH]; [reflexivity|]. destruct t as [|k [|x r]]; cbn [app get_d]; try exact IH.
  destruct (seqb_spec k (B "d")) as [->|]; [destruct (N x r eq_refl)|exact IH].
Qed.
Lemma contains_tagged e k v : contains_any (ev_tags e) k [v] = true <-> tagged e k v.
Proof.
  unfold tagged. induction (ev_tags e) as [|[|n [|x r]] ts IH]; cbn [contains_any].
  - split; [discriminate|intros (r & [])].
  - rewrite IH. split; intros (r & H); exists r; [right; exact H|destruct H as [H|H]; [discriminate|exact H]].
  - rewrite IH. split; intros (r & H); exists r; [right; exact H|destruct H as [H|H]; [discriminate|exact H]].
  - destruct (seqb_spec n k) as [->|NE]; cbn [negb].
    + unfold smem. cbn [existsb]. rewrite orb_false_r. rewrite (seqb_sym x v). destruct (seqb_spec v x) as [->|NV].
      * split; [intros _; exists r; left; reflexivity|reflexivity].
      * rewrite IH. split; intros (q & H); exists q; [right; exact H|destruct H as [H|H]; [congruence|exact H]].
    + rewrite IH. split; intros (q & H); exists q; [right; exact H|destruct H as [H|H]; [congruence|exact H]].
Qed.
Lemma ask_tag kind k v e : filter_matches (ask [kind] None [(k, Some [v])]) (Some e) = true <-> ev_kind e = kind /\ tagged e k v.
Proof.
  rewrite <- contains_tagged. unfold filter_matches, matches_ignoring_time, ask. cbn [f_ids f_kinds f_authors f_tags f_since f_until listed negb]. unfold zmem. cbn [existsb]. rewrite orb_false_r.
  destruct (Z.eqb_spec (ev_kind e) kind) as [->|N]; cbn [negb tags_loop].
  - destruct (contains_any (ev_tags e) k [v]); cbn; split; auto; try discriminate; intros [_ Q]; discriminate.
  - split; [discriminate|intros [Q _]; congruence].
Qed.

(** ** Repositories *)
Section Store.
Variable query : nfilter -> list event.
Variable stored : list event.
Hypothesis HQ : answers query stored.

(** The state given is one stored under the repository's name, read as it stands; there is none only if none is stored. *)
Theorem C123_state ev name : first_d (ev_tags ev) name ->
  match fetch_state query ev with
  | Some (e, st) => In e stored /\ is_state_of name e /\ st = parse_state (ev_tags e)
  | None => forall e, In e stored -> ~ is_state_of name e
  end.
Proof.
  intro HD. unfold fetch_state. pose proof (get_d_first _ _ HD) as G. unfold state_filter. rewrite G.
  set (f := ask [30618] None [(B "d", Some [name])]) in *. destruct (query f) as [|e r] eqn:Q.
  - intros e HI HS. assert (X : In e (query f)) by (apply HQ; split; [exact HI|]; apply C07_matches_iff_nip01; apply ask_tag; exact HS). rewrite Q in X. destruct X.
  - assert (X : In e (query f)) by (rewrite Q; left; reflexivity). apply HQ in X as [X1 X2]. apply C07_matches_iff_nip01 in X2. apply ask_tag in X2. split; [exact X1|]. split; [exact X2|reflexivity].
Qed.
(** The patches given are all those stored for this repository of this owner, and no others. *)
Theorem C123_patches ev e : In e (map fst (get_patches query ev)) <-> In e stored /\ is_patch_for (ev_pubkey ev) (rp_id (parse_repo (ev_tags ev))) e.
Proof.
  unfold get_patches. rewrite map_map. cbn [fst]. rewrite map_id. rewrite (HQ (patches_filter ev) e), <- C07_matches_iff_nip01. unfold patches_filter. rewrite ask_tag. reflexivity.
Qed.
(** What each is said to be for: the repository asked about, if its owner's key is one, its name has no colon and the patch names no other. *)
Theorem C123_patch_repository ev e p relay pre post : In (e, p) (get_patches query ev) -> valid_32byte_hex (ev_pubkey ev) = true -> has_colon (rp_id (parse_repo (ev_tags ev))) = false ->
  ev_tags e = pre ++ [B "a"; B "30617:" ++ ev_pubkey ev ++ B ":" ++ rp_id (parse_repo (ev_tags ev)); relay] :: post -> Forall (fun t => nth_error t 0 <> Some (B "a")) post ->
  p = mkEntity (ev_pubkey ev) 30617 (rp_id (parse_repo (ev_tags ev))) (Some [relay]).
Proof.
  intros HI V C HT F. unfold get_patches in HI. apply in_map_iff in HI as (e' & HE & _). assert (e' = e) by congruence. subst e'. assert (HP : p = patch_repo (ev_tags e)) by congruence. rewrite HP, HT.
  exact (C74_patch pre ev _ relay post V C F).
Qed.
End Store.
(** Both questions are about the same repository if the announcement was written by this library. *)
Theorem C123_same_name r ev : ev_tags ev = repo_tags r -> first_d (ev_tags ev) (rp_id r) /\ rp_id (parse_repo (ev_tags ev)) = rp_id r.
Proof.
  intro H. rewrite H. split; [|rewrite C74_repository; reflexivity]. exists [], [], (tl (repo_tags r)). split; [reflexivity|constructor].
Qed.
(** With two "d" tags the state is looked up under the first and the patches under the last. *)
Theorem C123_same_name_refuted : exists ev, first_d (ev_tags ev) (B "a") /\ rp_id (parse_repo (ev_tags ev)) = B "b" /\ state_filter ev = ask [30618] None [(B "d", Some [B "a"])] /\
  patches_filter ev = ask [1617] None [(B "a", Some [B "30617::b"])].
Proof.
  exists (mkEvent [] [] 0 30617 [[B "d"; B "a"]; [B "d"; B "b"]] [] []). split; [|repeat split; vm_compute; reflexivity]. exists [], [], [[B "d"; B "b"]]. split; [reflexivity|constructor].
Qed.
(** Nothing asks who the author is: a state by a stranger is taken for the repository's, even while the owner's is stored. *)
Theorem C123_owner_refuted : exists query stored ev e st own, answers query stored /\ fetch_state query ev = Some (e, st) /\ ev_pubkey e <> ev_pubkey ev /\
  In own stored /\ is_state_of (B "r") own /\ ev_pubkey own = ev_pubkey ev /\ first_d (ev_tags ev) (B "r") /\ rs_branches st = [(B "main", B "bad")].
Proof.
  set (own := mkEvent (B "1") (B "owner") 5 30618 [[B "d"; B "r"]; [B "refs/heads/main"; B "good"]] [] []).
  set (bad := mkEvent (B "2") (B "other") 4 30618 [[B "d"; B "r"]; [B "refs/heads/main"; B "bad"]] [] []).
  exists (fun f => filter (fun e => filter_matches f (Some e)) [bad; own]), [bad; own], (mkEvent (B "3") (B "owner") 1 30617 [[B "d"; B "r"]] [] []), bad, (parse_state (ev_tags bad)), own.
  split; [intros f e; rewrite filter_In, C07_matches_iff_nip01; reflexivity|]. split; [vm_compute; reflexivity|]. split; [vm_compute; discriminate|]. split; [right; left; reflexivity|].
  split; [split; [reflexivity|exists []; left; reflexivity]|]. split; [reflexivity|]. split; [exists [], [], []; split; [reflexivity|constructor]|]. vm_compute. reflexivity.
Qed.

(** ** Relays for private messages *)
(** The values of the "relay" tags, in order. *)
Inductive relay_values : list tag -> list str -> Prop :=
| rv_nil : relay_values [] []
| rv_hit v r ts l : relay_values ts l -> relay_values ((B "relay" :: v :: r) :: ts) (v :: l)
| rv_miss t ts l : (forall v r, t <> B "relay" :: v :: r) -> relay_values ts l -> relay_values (t :: ts) l.
Lemma relay_values_some ts : exists l, relay_values ts l.
Proof.
  induction ts as [|t ts (l & IH)]; [exists []; constructor|]. destruct t as [|k [|v r]]; try (exists l; apply rv_miss; [intros; discriminate|exact IH]).
  destruct (seqb_spec k (B "relay")) as [->|N]; [exists (v :: l); apply rv_hit, IH|]. exists l. apply rv_miss; [intros; congruence|exact IH].
Qed.
Lemma dm_loop_values ts l : relay_values ts l -> forall res, (length res < 3)%nat -> dm_loop ts res = res ++ firstn (3 - length res) l.
Proof.
  induction 1 as [|v r ts l H IH|t ts l N H IH]; intros res HL.
  - cbn [dm_loop]. rewrite firstn_nil, app_nil_r. reflexivity.
  - cbn [dm_loop]. change (seqb (B "relay") (B "relay")) with true. cbv iota zeta. rewrite app_length. cbn [length]. destruct (Nat.eqb_spec (length res + 1) 3) as [E|E].
    + replace (3 - length res)%nat with 1%nat by lia. reflexivity.
    + rewrite IH by (rewrite app_length; cbn [length]; lia). rewrite app_length. cbn [length]. replace (3 - length res)%nat with (S (3 - (length res + 1))) by lia. cbn [firstn]. rewrite <- app_assoc. reflexivity.
  - rewrite <- IH by exact HL. destruct t as [|k [|v r]]; try reflexivity. cbn [dm_loop]. destruct (seqb_spec k (B "relay")) as [->|]; [destruct (N v r eq_refl)|reflexivity].
Qed.
(** At most three, the first ones of a list of this person's. *)
Theorem C123_dm_relays single pk : (forall f e, single f = Some e -> nip01_match f e) ->
  match get_dm_relays single pk with
  | Some l => exists e all, ev_kind e = 10050 /\ ev_pubkey e = pk /\ single (dm_filter pk) = Some e /\ relay_values (ev_tags e) all /\ l = firstn 3 all
  | None => single (dm_filter pk) = None
  end.
Proof.
  intro HS. unfold get_dm_relays. destruct (single (dm_filter pk)) as [e|] eqn:E; [|reflexivity]. pose proof (HS _ _ E) as M. apply C07_matches_iff_nip01 in M.
  assert (K : ev_kind e = 10050 /\ ev_pubkey e = pk).
  { unfold filter_matches, matches_ignoring_time, dm_filter, ask in M. cbn [f_ids f_kinds f_authors f_tags f_since f_until listed negb] in M. unfold zmem, smem in M. cbn [existsb] in M. rewrite !orb_false_r in M.
    destruct (Z.eqb_spec (ev_kind e) 10050) as [->|]; [|discriminate]. destruct (seqb_spec (ev_pubkey e) pk) as [->|]; [auto|discriminate]. }
  destruct (relay_values_some (ev_tags e)) as (all & HA). exists e, all. split; [apply K|]. split; [apply K|]. split; [reflexivity|]. split; [exact HA|]. rewrite (dm_loop_values _ _ HA) by (cbn; lia). reflexivity.
Qed.
(** Which list: the first that comes, from any relay. It may be an old one while another relay has the new one. *)
Theorem C123_dm_newest_refuted : exists single stored old new pk, (forall f e, single f = Some e -> In e stored /\ nip01_match f e) /\ In new stored /\ single (dm_filter pk) = Some old /\
  ev_pubkey new = pk /\ ev_kind new = 10050 /\ ev_created_at old < ev_created_at new /\ get_dm_relays single pk = Some [B "wss://old"] /\ relay_values (ev_tags new) [B "wss://new"].
Proof.
  set (old := mkEvent (B "1") (B "p") 1 10050 [[B "relay"; B "wss://old"]] [] []). set (new := mkEvent (B "2") (B "p") 2 10050 [[B "relay"; B "wss://new"]] [] []).
  exists (fun f => find (fun e => filter_matches f (Some e)) [old; new]), [old; new], old, new, (B "p").
  split; [intros f e H; apply find_some in H as [H1 H2]; split; [exact H1|apply C07_matches_iff_nip01, H2]|]. repeat split; try (vm_compute; reflexivity); [right; left; reflexivity|]. repeat constructor.
Qed.

(** None of the three requests limits the number of events. *)
Theorem C123_no_limit ev pk : forall f, In f [state_filter ev; patches_filter ev; dm_filter pk] -> f_limit f = 0 /\ f_limit_zero f = false /\ f_search f = [] /\ f_since f = None /\ f_until f = None.
Proof. intros f [<-|[<-|[<-|[]]]]; repeat split; reflexivity. Qed.

(** ** Things outside *)
Theorem C123_external thing : ext_tag thing = [B "i"; thing] /\ ext_from_tag (ext_tag thing) = Ok thing /\ ext_reference thing = thing.
Proof. repeat split. Qed.
(** Such a pointer matches no event, but the filter made from it asks for everything. *)
Theorem C123_external_filter_refuted thing : f_limit (ext_filter thing) = 0 /\ f_limit_zero (ext_filter thing) = false /\ f_search (ext_filter thing) = [] /\ forall e, ext_matches thing e = false /\ filter_matches (ext_filter thing) (Some e) = true.
Proof. repeat split; reflexivity. Qed.
Theorem C123_external_short_refuted : exists t, ext_from_tag t = Panic.
Proof. exists [B "i"]. reflexivity. Qed.

Example C123_example :
  let ev := mkEvent (B "3") (repeat "a"%char 64) 1 30617 [[B "d"; B "r"]] [] [] in
  let p1 := mkEvent (B "4") (B "x") 1 1617 [[B "a"; B "30617:" ++ repeat "a"%char 64 ++ B ":r"; B "wss://x"]] [] [] in
  let p2 := mkEvent (B "5") (B "x") 1 1617 [[B "a"; B "30617:" ++ repeat "b"%char 64 ++ B ":r"; B "wss://x"]] [] [] in
  let st := [p2; p1] in let query f := filter (fun e => filter_matches f (Some e)) st in
  answers query st /\ get_patches query ev = [(p1, mkEntity (repeat "a"%char 64) 30617 (B "r") (Some [B "wss://x"]))] /\ fetch_state query ev = None /\
  dm_loop [[B "relay"; B "1"]; [B "r"; B "x"]; [B "relay"]; [B "relay"; B "2"; B "y"]; [B "relay"; B "3"]; [B "relay"; B "4"]] [] = [B "1"; B "2"; B "3"].
Proof.
  cbv zeta. split; [intros f e; rewrite filter_In, C07_matches_iff_nip01; reflexivity|]. repeat split; vm_compute; reflexivity.
Qed.

Print Assumptions C123_state.
Print Assumptions C123_patches.
Print Assumptions C123_patch_repository.
Print Assumptions C123_same_name.
Print Assumptions C123_same_name_refuted.
Print Assumptions C123_owner_refuted.
Print Assumptions C123_dm_relays.
Print Assumptions C123_dm_newest_refuted.
Print Assumptions C123_external.
Print Assumptions C123_external_filter_refuted.
Print Assumptions C123_external_short_refuted.
Print Assumptions C123_no_limit.
