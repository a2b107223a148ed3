(** C71, C88-C92: loading the wallet, its events, nutzaps. *)
From Verif Require Import Base EventModel Nip19Model Machine WalletModel WalletProofs WalletLoadModel.
Import ListNotations.
Open Scope Z_scope.

(** * C71 *)
Definition carries (id : str) (t : token) : Prop := tk_event t = Some id.
Lemma has_id_carries id t : has_id id t = true <-> carries id t.
Proof. unfold has_id, carries. destruct (tk_event t) as [i|]; [|split; discriminate]. destruct (seqb_spec i id) as [->|N]; split; congruence. Qed.

(** Swap-deleting from the back: what lies beyond the index has been looked at already. *)
Lemma upd_app_last (a : list token) x l y : upd (a ++ x :: l) (length a) y = a ++ y :: l.
Proof. induction a as [|z a IH]; cbn; [reflexivity|]. f_equal. exact IH. Qed.
Lemma remove_from_spec id n a b : length a = n -> Forall (fun t => has_id id t = false) b ->
  exists ts', remove_from n id (a ++ b) = Ok ts' /\ Permutation ts' (filter (fun t => negb (has_id id t)) (a ++ b)).
Proof.
  revert a b. induction n as [|n IH]; intros a b L F.
  - destruct a; [|discriminate]. cbn. exists b. split; [reflexivity|]. assert (filter (fun t => negb (has_id id t)) b = b) as ->; [|apply Permutation_refl]. clear - F. induction F as [|t b H _ IH]; cbn; [reflexivity|]. rewrite H. cbn. rewrite IH. reflexivity.
  - destruct (exists_last (l := a)) as (a' & x & ->); [destruct a; [discriminate|discriminate]|]. rewrite app_length in L. cbn in L. assert (La : length a' = n) by lia. rewrite <- app_assoc. cbn [app remove_from].
    assert (nth_error (a' ++ x :: b) n = Some x) as -> by (rewrite nth_error_app2, La, Nat.sub_diag by lia; reflexivity).
    destruct (has_id id x) eqn:HX.
    + destruct (exists_last (l := x :: b)) as (c & l & E); [discriminate|]. assert (nth_error (a' ++ x :: b) (length (a' ++ x :: b) - 1) = Some l) as ->.
      { rewrite E, app_assoc, app_length. cbn [length]. rewrite Nat.add_sub. rewrite nth_error_app2, Nat.sub_diag by lia. reflexivity. }
      rewrite <- La, upd_app_last, La.
      destruct c as [|x' c]; cbn in E.
      * injection E as -> ->. rewrite removelast_app by discriminate. cbn [removelast]. destruct (IH a' [] La (Forall_nil _)) as (ts' & R & P). exists ts'. split; [exact R|]. rewrite app_nil_r in P. rewrite filter_app. cbn. rewrite HX. cbn. rewrite app_nil_r. exact P.
      * injection E as -> ->. change (l :: c ++ [l]) with ((l :: c) ++ [l]). rewrite (app_assoc a'), removelast_last. apply Forall_app in F. destruct F as [Fc Fl]. inversion Fl; subst.
        destruct (IH a' (l :: c) eq_refl) as (ts' & R & P). { constructor; assumption. } exists ts'. split; [exact R|]. rewrite P. rewrite !filter_app. apply Permutation_app_head. cbn [filter]. rewrite HX. cbn [negb]. rewrite filter_app. cbn [filter]. rewrite H1. cbn [negb]. apply Permutation_cons_append.
    + destruct (IH a' (x :: b) La) as (ts' & R & P). { constructor; assumption. } exists ts'. split; [exact R|exact P].
Qed.

Lemma filter_perm {X} (f : X -> bool) a b : Permutation a b -> Permutation (filter f a) (filter f b).
Proof.
  induction 1 as [|x a b P IH|x y a|a b c P1 I1 P2 I2]; cbn; [constructor|destruct (f x); [constructor|]; assumption| |eapply perm_trans; eassumption].
  destruct (f x), (f y); try apply Permutation_refl. apply perm_swap.
Qed.

(** removeDeletedToken never goes out of range, removes the tokens with the id and keeps every other. *)
Theorem C71_remove id ts : exists ts', remove_deleted id ts = Ok ts' /\ forall l, Permutation ts l -> Permutation ts' (filter (fun t => negb (has_id id t)) l).
Proof.
  unfold remove_deleted. destruct (remove_from_spec id (length ts) ts [] eq_refl (Forall_nil _)) as (ts' & R & P). rewrite app_nil_r in *. exists ts'. split; [exact R|]. intros l PL. rewrite P. apply filter_perm. exact PL.
Qed.
Corollary C71_remove_content id ts ts' : remove_deleted id ts = Ok ts' -> (forall t, In t ts' <-> In t ts /\ ~ carries id t) /\ worth ts' = worth (filter (fun t => negb (has_id id t)) ts).
Proof.
  intro H. destruct (C71_remove id ts) as (x & R & P). assert (x = ts') as -> by congruence. specialize (P ts (Permutation_refl _)). split.
  - intro t. split.
    + intro I. apply (Permutation_in _ P) in I. apply filter_In in I. destruct I as [I N]. split; [exact I|]. rewrite <- has_id_carries. destruct (has_id id t); discriminate || congruence.
    + intros [I N]. apply (Permutation_in _ (Permutation_sym P)). apply filter_In. split; [exact I|]. rewrite <- has_id_carries in N. destruct (has_id id t); [destruct N; reflexivity|reflexivity].
  - clear - P. induction P; cbn in *; unfold worth in *; cbn; try lia.
Qed.
Example C71_remove_applies : remove_deleted (B "b") [mkT [] [] [] (Some (B "a")); mkT [] [] [] (Some (B "b")); mkT [] [] [] None; mkT [] [] [] (Some (B "b")); mkT [] [] [] (Some (B "c"))] = Ok [mkT [] [] [] (Some (B "a")); mkT [] [] [] (Some (B "c")); mkT [] [] [] None].
Proof. reflexivity. Qed.

(** What arrives before the end of stored events, each handled whole, in some order; then the first goroutine runs. *)
Inductive arrival := ATok (t : token) | ADel (ids : list str).
Definition handle (a : arrival) : list laction := match a with ATok t => [LToken t; LEnd] | ADel ids => [LDel ids; LEnd] end.
Definition deletions (l : list arrival) : list str := flat_map (fun a => match a with ATok t => tk_deleted t | ADel ids => ids end) l.
Definition schedule (l : list arrival) : list laction := flat_map handle l ++ [LFlag; LSnap] ++ repeat LRemove (length (deletions l)) ++ [LClear].
(** the tokens that arrived, each once *)
Definition same_event (t u : token) : Prop := exists i, carries i t /\ carries i u.

Definition gone (ids : list str) (t : token) : bool := existsb (fun i => has_id i t) ids.
Lemma remove_all_spec ids ts : exists ts', remove_all ids ts = Ok ts' /\ Permutation ts' (filter (fun t => negb (gone ids t)) ts).
Proof.
  revert ts. induction ids as [|i ids IH]; intro ts; cbn [remove_all].
  - exists ts. split; [reflexivity|]. assert (filter (fun t => negb (gone [] t)) ts = ts) as ->; [|apply Permutation_refl]. induction ts as [|t ts IH]; cbn in *; [reflexivity|f_equal; exact IH].
  - destruct (C71_remove i ts) as (t1 & R & P). rewrite R. cbn [obind]. destruct (IH t1) as (t2 & R2 & P2). exists t2. split; [exact R2|]. rewrite P2. rewrite (filter_perm _ _ _ (P ts (Permutation_refl _))).
    assert (filter (fun t => negb (gone ids t)) (filter (fun t => negb (has_id i t)) ts) = filter (fun t => negb (gone (i :: ids) t)) ts) as ->; [|apply Permutation_refl].
    clear. induction ts as [|t ts IH]; [reflexivity|]. cbn [filter gone existsb]. fold (gone ids t). destruct (has_id i t); cbn [negb orb]; [exact IH|]. cbn [filter]. destruct (gone ids t); cbn [negb]; [exact IH|f_equal; exact IH].
Qed.

(** the tokens gathered by the handlers *)
Definition add (ts : list token) (t : token) : list token := if existsb (fun c => match tk_event t with Some i => has_id i c | None => false end) ts then ts else ts ++ [t].
Definition gather (l : list arrival) : list token := fold_left (fun ts a => match a with ATok t => add ts t | ADel _ => ts end) l [].
Lemma run_handlers l ts pend : exec lstep (flat_map handle l) (mkL ts pend false Waiting HIdle false) =
  Some (mkL (fold_left (fun ts a => match a with ATok t => add ts t | ADel _ => ts end) l ts) (pend ++ deletions l) false Waiting HIdle false).
Proof.
  revert ts pend. induction l as [|a l IH]; intros ts pend; cbn [flat_map]; [cbn; rewrite app_nil_r; reflexivity|]. rewrite exec_app.
  destruct a as [t|ids]; cbn [handle exec lstep l_panic l_handler l_pc l_tokens l_pend l_eosed fold_left]; rewrite IH; unfold deletions; cbn [flat_map]; rewrite app_assoc; reflexivity.
Qed.
Lemma run_removals ids ts pend : exists ts', exec lstep (repeat LRemove (length ids) ++ [LClear]) (mkL ts pend true (Removing ids) HIdle false) = Some (mkL ts' [] true Loaded HIdle false) /\ remove_all ids ts = Ok ts'.
Proof.
  revert ts. induction ids as [|i ids IH]; intro ts; cbn [length repeat app].
  - exists ts. split; reflexivity.
  - cbn [exec lstep l_panic l_handler l_pc]. unfold apply_removal. cbn [remove_all l_tokens]. destruct (C71_remove i ts) as (t1 & R & _). rewrite R. cbn [obind l_pend l_eosed]. exact (IH t1).
Qed.
(** The wallet ends up with the tokens that came and that nothing deleted. *)
Theorem C71_load l : exists s, exec lstep (schedule l) lnew = Some s /\ l_pc s = Loaded /\ l_panic s = false /\ Permutation (l_tokens s) (filter (fun t => negb (gone (deletions l) t)) (gather l)).
Proof.
  unfold schedule. rewrite exec_app. unfold lnew. rewrite run_handlers. cbn [app]. cbn [exec lstep l_panic l_handler l_pc l_tokens l_pend l_eosed].
  destruct (run_removals (deletions l) (fold_left (fun ts a => match a with ATok t => add ts t | ADel _ => ts end) l []) (deletions l)) as (ts' & E & R). eexists. split; [exact E|]. cbn. split; [reflexivity|]. split; [reflexivity|].
  destruct (remove_all_spec (deletions l) (gather l)) as (ts'' & R' & P). unfold gather in R' at 1. assert (ts' = ts'') as -> by congruence. exact P.
Qed.

(** The tokens gathered: those that came, one for each event. *)
Lemma existsb_same t ts : existsb (fun c => match tk_event t with Some i => has_id i c | None => false end) ts = true <-> exists u, In u ts /\ same_event t u.
Proof.
  rewrite existsb_exists. split; intros (u & I & H); exists u; (split; [exact I|]).
  - destruct (tk_event t) as [i|] eqn:E; [|discriminate]. exists i. split; [exact E|apply has_id_carries; exact H].
  - destruct H as (i & H1 & H2). rewrite H1. apply has_id_carries. exact H2.
Qed.
Definition published (t : token) : Prop := exists i, carries i t.
Lemma gather_spec l : (forall t, In (ATok t) l -> published t) -> (forall t u, In (ATok t) l -> In (ATok u) l -> same_event t u -> t = u) ->
  NoDup (gather l) /\ forall t, In t (gather l) <-> In (ATok t) l.
Proof.
  intros P U. unfold gather.
  assert (G : forall k ts, (exists pre, l = pre ++ k) -> (forall t, In t ts -> In (ATok t) l) -> NoDup ts ->
    NoDup (fold_left (fun ts a => match a with ATok t => add ts t | ADel _ => ts end) k ts) /\ forall t, In t (fold_left (fun ts a => match a with ATok t => add ts t | ADel _ => ts end) k ts) <-> In t ts \/ In (ATok t) k).
  { induction k as [|a k IH]; intros ts [pre E] S N; cbn [fold_left]. { split; [exact N|]. intro t. cbn. tauto. }
    assert (X : exists pre, l = pre ++ k) by (exists (pre ++ [a]); rewrite <- app_assoc; exact E). assert (IA : In a l) by (rewrite E; apply in_or_app; right; left; reflexivity).
    destruct a as [t|ids].
    - unfold add. destruct (existsb _ ts) eqn:D.
      + destruct (IH ts X S N) as [I1 I2]. split; [exact I1|]. intro v. rewrite I2. cbn. apply existsb_same in D. destruct D as (u & Iu & Su). assert (t = u) as -> by (apply U; auto). split; [tauto|]. intros [|[Q|]]; auto. injection Q as ->. auto.
      + assert (ND : ~ In t ts). { intro I. assert (D' : existsb (fun c => match tk_event t with Some i => has_id i c | None => false end) ts = true) by (apply existsb_same; exists t; split; [exact I|destruct (P t IA) as [i Hi]; exists i; auto]). congruence. }
        destruct (IH (ts ++ [t]) X) as [I1 I2]. { intros v I. apply in_app_or in I. destruct I as [I|[<-|[]]]; auto. } { apply (Permutation_NoDup (Permutation_cons_append ts t)). constructor; assumption. }
        split; [exact I1|]. intro v. rewrite I2, in_app_iff. cbn. split; intros Q; repeat destruct Q as [Q|Q]; auto; try contradiction; try (injection Q as ->; auto). subst v. auto.
    - destruct (IH ts X S N) as [I1 I2]. split; [exact I1|]. intro v. rewrite I2. cbn. split; [tauto|]. intros [|[Q|]]; auto. discriminate. }
  destruct (G l [] (ex_intro _ [] eq_refl)) as [G1 G2]; [intros t []|constructor|]. split; [exact G1|]. intro t. rewrite G2. cbn. tauto.
Qed.

(** The order in which tokens and deletions come before the end of stored events does not matter. *)
Theorem C71_order l1 l2 s1 s2 : (forall t, In (ATok t) l1 -> published t) -> (forall t u, In (ATok t) l1 -> In (ATok u) l1 -> same_event t u -> t = u) -> Permutation l1 l2 ->
  exec lstep (schedule l1) lnew = Some s1 -> exec lstep (schedule l2) lnew = Some s2 ->
  Permutation (l_tokens s1) (l_tokens s2) /\ forall t, In t (l_tokens s1) <-> In (ATok t) l1 /\ forall i, In i (deletions l1) -> ~ carries i t.
Proof.
  intros P U PL E1 E2. destruct (C71_load l1) as (x & Ex & _ & _ & Px). rewrite E1 in Ex. assert (s1 = x) as <- by congruence. destruct (C71_load l2) as (y & Ey & _ & _ & Py). rewrite E2 in Ey. assert (s2 = y) as <- by congruence.
  destruct (gather_spec l1 P U) as [N1 I1]. destruct (gather_spec l2) as [N2 I2]. { intros t I. apply P. apply (Permutation_in _ (Permutation_sym PL)). exact I. } { intros t u A1 A2. apply U; apply (Permutation_in _ (Permutation_sym PL)); assumption. }
  assert (PG : Permutation (gather l1) (gather l2)). { apply NoDup_Permutation; [exact N1|exact N2|]. intro t. rewrite I1, I2. split; apply Permutation_in; [exact PL|apply Permutation_sym; exact PL]. }
  assert (GD : forall t, gone (deletions l1) t = gone (deletions l2) t). { intro t. assert (PD : Permutation (deletions l1) (deletions l2)) by (unfold deletions; apply Permutation_flat_map; exact PL). unfold gone. destruct (existsb _ (deletions l1)) eqn:A1; symmetry.
    - apply existsb_exists in A1. destruct A1 as (i & I & H). apply existsb_exists. exists i. split; [apply (Permutation_in _ PD); exact I|exact H].
    - destruct (existsb _ (deletions l2)) eqn:A2; [|reflexivity]. apply existsb_exists in A2. destruct A2 as (i & I & H). rewrite <- A1. symmetry. apply existsb_exists. exists i. split; [apply (Permutation_in _ (Permutation_sym PD)); exact I|exact H]. }
  split.
  - rewrite Px, Py. rewrite (filter_perm _ _ _ PG). assert (filter (fun t => negb (gone (deletions l1) t)) (gather l2) = filter (fun t => negb (gone (deletions l2) t)) (gather l2)) as ->; [|apply Permutation_refl]. apply filter_ext. intro t. rewrite GD. reflexivity.
  - intro t. split.
    + intro I. apply (Permutation_in _ Px) in I. apply filter_In in I. destruct I as [I G]. split; [apply I1; exact I|]. intros i Ii C. apply has_id_carries in C. assert (gone (deletions l1) t = true) as G' by (apply existsb_exists; exists i; auto). rewrite G' in G. discriminate.
    + intros [I D]. apply (Permutation_in _ (Permutation_sym Px)). apply filter_In. split; [apply I1; exact I|]. destruct (gone (deletions l1) t) eqn:G; [|reflexivity]. apply existsb_exists in G. destruct G as (i & Ii & H). apply has_id_carries in H. destruct (D i Ii H).
Qed.
Definition tok (i : str) (del : list str) : token := mkT (B "m") [mkP 8 (B "k") Free] del (Some i).
Example C71_order_applies : exists s, exec lstep (schedule [ADel [B "a"]; ATok (tok (B "a") []); ATok (tok (B "b") [B "c"]); ATok (tok (B "a") []); ATok (tok (B "d") []); ATok (tok (B "c") [])]) lnew = Some s /\ l_tokens s = [tok (B "d") []; tok (B "b") [B "c"]].
Proof. eexists. split; vm_compute; reflexivity. Qed.

(** The first goroutine takes no lock: a deletion whose handler has already looked at the flag is put on a list nobody reads any more. *)
Theorem C71_race_refuted : exists s, exec lstep [LToken (tok (B "a") []); LEnd; LDel [B "a"]; LFlag; LSnap; LClear; LEnd] lnew = Some s /\ l_pc s = Loaded /\ l_tokens s = [tok (B "a") []] /\ l_pend s = [B "a"].
Proof. eexists. split; [vm_compute; reflexivity|]. repeat split. Qed.
(** ... and every later step leaves it there. *)
Theorem C71_race_forever s acts s' : l_pc s = Loaded -> l_eosed s = true -> match l_handler s with HToken _ false | HDel _ false => False | _ => True end -> exec lstep acts s = Some s' -> l_pend s' = l_pend s.
Proof.
  revert s. induction acts as [|a acts IH]; intros s P E H X; cbn [exec] in X. { congruence. }
  destruct (lstep a s) as [s1|] eqn:S; [|discriminate].
  assert (G : l_pc s1 = Loaded /\ l_eosed s1 = true /\ match l_handler s1 with HToken _ false | HDel _ false => False | _ => True end /\ l_pend s1 = l_pend s).
  { unfold lstep in S. destruct (l_panic s); [discriminate|]. rewrite P in S. unfold apply_removal in S. destruct a, (l_handler s) as [|d [|]|d [|]] eqn:HS; try discriminate; try contradiction; try (destruct (remove_all d (l_tokens s))); injection S as <-; cbn; rewrite ?E, ?HS; auto. }
  destruct G as (G1 & G2 & G3 & G4). rewrite <- G4. exact (IH s1 G1 G2 G3 X).
Qed.
(** After the end of stored events a deletion that comes before its token is forgotten. *)
Theorem C71_late_token_refuted : exists s, exec lstep (schedule [] ++ [LDel [B "a"]; LEnd; LToken (tok (B "a") []); LEnd]) lnew = Some s /\ l_tokens s = [tok (B "a") []].
Proof. eexists. split; vm_compute; reflexivity. Qed.

(** * C88: wallet metadata *)
Section Events.
Variable encrypt : str -> str.
Variable decrypt : str -> option str.
Variable tags_json : list tag -> str.
Variable json_tags : str -> option (list tag).
Variable key_of : str -> str.
Definition codec_laws : Prop := (forall s, decrypt (encrypt s) = Some s) /\ (forall ts, json_tags (tags_json ts) = Some ts) /\ (forall ts, tags_json ts <> []).

(** What a wallet publishes about itself, another one reads: its mints in order and its key. *)
Theorem C88_round_trip w w0 e : codec_laws -> ev_content e = meta_content encrypt tags_json w -> ev_tags e = [] -> (forall k, wm_key w = Some k -> key_of k = k) ->
  meta_parse decrypt json_tags key_of w0 e = (mkW (Some e) (match wm_key w with Some k => Some k | None => wm_key w0 end) (wm_mints w), true).
Proof.
  intros (L1 & L2 & L3) C T K. unfold meta_parse. rewrite C. unfold meta_content. rewrite L1. unfold all_tags. match goal with |- context [tags_json ?x] => set (ts := x) end. pose proof (L3 ts) as NE. destruct (tags_json ts) as [|c j] eqn:J; [congruence|]. rewrite <- J, L2, T, app_nil_r.
  assert (G : forall ms acc k, meta_tags key_of (map (fun m => [B "mint"; m]) ms) acc k = Some (acc ++ ms, k)). { induction ms as [|m ms IH]; intros acc k; cbn [map meta_tags]; [rewrite app_nil_r; reflexivity|]. change (seqb (B "mint") (B "mint")) with true. cbn iota. rewrite IH, <- app_assoc. reflexivity. }
  unfold ts. destruct (wm_key w) as [k|] eqn:W; cbn [app].
  - cbn [meta_tags]. change (seqb (B "privkey") (B "mint")) with false. change (seqb (B "privkey") (B "privkey")) with true. cbn iota. rewrite hex_decode_encode, (K k eq_refl), G. reflexivity.
  - rewrite G. reflexivity.
Qed.
(** The comparison of times comes too late: whatever is read last stands. *)
Theorem C88_last_read_stands w e : meta_event decrypt json_tags key_of w e = fst (meta_parse decrypt json_tags key_of w e).
Proof.
  unfold meta_event. destruct (meta_parse decrypt json_tags key_of w e) as [w1 ok] eqn:P. destruct ok; cbn [negb]; [|reflexivity].
  assert (wm_event w1 = Some e) as ->. { unfold meta_parse in P. destruct (decrypt (ev_content e)); [|congruence]. destruct (all_tags json_tags e s); [|congruence]. destruct (meta_tags key_of l [] None) as [[ms k]|]; [|congruence]. assert (w1 = mkW (Some e) (match k with Some k => Some k | None => wm_key w end) ms) as -> by congruence. reflexivity. }
  rewrite Z.ltb_irrefl. reflexivity.
Qed.
Corollary C88_newest_loses_refuted w0 w1 w2 e1 e2 : codec_laws -> ev_content e1 = meta_content encrypt tags_json w1 -> ev_tags e1 = [] -> (forall k, wm_key w1 = Some k -> key_of k = k) ->
  ev_content e2 = meta_content encrypt tags_json w2 -> ev_tags e2 = [] -> (forall k, wm_key w2 = Some k -> key_of k = k) -> ev_created_at e2 < ev_created_at e1 ->
  wm_mints (meta_event decrypt json_tags key_of (meta_event decrypt json_tags key_of w0 e1) e2) = wm_mints w2.
Proof. intros L C1 T1 K1 C2 T2 K2 _. rewrite !C88_last_read_stands, (C88_round_trip w2 _ e2 L C2 T2 K2). reflexivity. Qed.
(** Even an event that cannot be read takes the place of the wallet's event. *)
Theorem C88_unreadable_refuted w e : decrypt (ev_content e) = None -> meta_event decrypt json_tags key_of w e = mkW (Some e) (wm_key w) (wm_mints w).
Proof. intro D. rewrite C88_last_read_stands. unfold meta_parse. rewrite D. reflexivity. Qed.
(** Mints named in the clear are dropped when there is nothing encrypted. *)
Theorem C88_clear_tags_refuted w e : decrypt (ev_content e) = Some [] -> wm_mints (meta_event decrypt json_tags key_of w e) = [].
Proof. intro D. rewrite C88_last_read_stands. unfold meta_parse. rewrite D. reflexivity. Qed.

(** * C89: history entries *)
(** What comes back: the same entry, nutzaps last. *)
Definition settled (h : hentry) : hentry := mkH (h_in h) (h_amount h) (filter (fun r => negb (rf_nutzap r)) (h_refs h) ++ map (fun r => mkRef (rf_id r) true true) (filter rf_nutzap (h_refs h))).
Lemma hist_refs refs h missing rest : Forall (fun r => valid_32byte_hex (rf_id r) = true) refs ->
  hist_fold (map ref_tag refs ++ rest) h missing = hist_fold rest (mkH (h_in h) (h_amount h) (h_refs h ++ map (fun r => if rf_nutzap r then mkRef (rf_id r) true true else r) refs)) missing.
Proof.
  intro V. revert h. induction V as [|r refs Vr _ IH]; intro h; cbn [map app]. { rewrite app_nil_r. destruct h; reflexivity. }
  cbn [hist_fold ref_tag]. change (seqb (B "e") (B "direction")) with false. change (seqb (B "e") (B "amount")) with false. change (seqb (B "e") (B "e")) with true. cbn iota. rewrite Vr. cbn [negb].
  assert (Q : forall x, hist_fold (map ref_tag refs ++ rest) (mkH (h_in h) (h_amount h) (h_refs h ++ [x])) missing = hist_fold rest (mkH (h_in h) (h_amount h) (h_refs h ++ x :: map (fun r => if rf_nutzap r then mkRef (rf_id r) true true else r) refs)) missing).
  { intro x. rewrite IH. cbn [h_in h_amount h_refs]. rewrite <- app_assoc. reflexivity. }
  destruct r as [id [|] [|]]; cbn [rf_id rf_created rf_nutzap] in *; exact (Q _).
Qed.
Theorem C89 h e : codec_laws -> ev_content e = hist_content encrypt tags_json h -> ev_tags e = hist_tags h -> 0 < h_amount h < 18446744073709551616 -> Forall (fun r => valid_32byte_hex (rf_id r) = true) (h_refs h) ->
  hist_parse decrypt json_tags e = Ok (settled h).
Proof.
  intros (L1 & L2 & L3) C T A V. unfold hist_parse. rewrite C. unfold hist_content. rewrite L1. unfold all_tags. match goal with |- context [tags_json ?x] => set (ts := x) end. pose proof (L3 ts) as NE. destruct (tags_json ts) as [|c j] eqn:J; [congruence|]. rewrite <- J, L2, T.
  unfold ts. rewrite <- app_assoc. cbn [app]. cbn [hist_fold]. change (seqb (B "direction") (B "direction")) with true. change (seqb (B "amount") (B "direction")) with false. change (seqb (B "amount") (B "amount")) with true. cbn iota.
  assert (P : parse_uint (dec_Z (h_amount h)) = Some (h_amount h)). { assert (X : exists n, h_amount h = Z.of_N n /\ (Z.of_N n <= max_uint64)%Z) by (exists (Z.to_N (h_amount h)); unfold max_uint64; lia). destruct X as (n & -> & Bn). assert (dec_Z (Z.of_N n) = dec_N n) as -> by (destruct n; reflexivity). rewrite <- (N2Z.id n) at 1. apply parse_uint_dec. lia. }
  assert (V1 : Forall (fun r => valid_32byte_hex (rf_id r) = true) (filter (fun r => negb (rf_nutzap r)) (h_refs h))). { apply Forall_forall. intros r I. apply filter_In in I. apply (proj1 (Forall_forall _ _) V). apply I. }
  assert (V2 : Forall (fun r => valid_32byte_hex (rf_id r) = true) (filter rf_nutzap (h_refs h))). { apply Forall_forall. intros r I. apply filter_In in I. apply (proj1 (Forall_forall _ _) V). apply I. }
  assert (M1 : map (fun r => if rf_nutzap r then mkRef (rf_id r) true true else r) (filter (fun r => negb (rf_nutzap r)) (h_refs h)) = filter (fun r => negb (rf_nutzap r)) (h_refs h)). { clear. induction (h_refs h) as [|r l IH]; [reflexivity|]. cbn. destruct (rf_nutzap r) eqn:N; cbn; [exact IH|]. rewrite N. f_equal. exact IH. }
  assert (M2 : map (fun r => if rf_nutzap r then mkRef (rf_id r) true true else r) (filter rf_nutzap (h_refs h)) = map (fun r => mkRef (rf_id r) true true) (filter rf_nutzap (h_refs h))). { clear. induction (h_refs h) as [|r l IH]; [reflexivity|]. cbn. destruct (rf_nutzap r) eqn:N; cbn; [|exact IH]. rewrite N. f_equal. exact IH. }
  unfold hist_tags. destruct (h_in h) eqn:HI.
  - change (seqb (B "in") (B "in")) with true. cbn iota. rewrite P. cbn [h_in h_amount h_refs]. rewrite hist_refs by exact V1. rewrite <- (app_nil_r (map ref_tag (filter rf_nutzap (h_refs h)))), hist_refs by exact V2. cbn [hist_fold obind fst snd h_in h_amount h_refs app]. rewrite M1, M2. destruct (Z.eqb_spec (h_amount h) 0); [lia|]. unfold settled. rewrite HI. reflexivity.
  - change (seqb (B "out") (B "in")) with false. change (seqb (B "out") (B "out")) with true. cbn iota. rewrite P. cbn [h_in h_amount h_refs]. rewrite hist_refs by exact V1. rewrite <- (app_nil_r (map ref_tag (filter rf_nutzap (h_refs h)))), hist_refs by exact V2. cbn [hist_fold obind fst snd h_in h_amount h_refs app]. rewrite M1, M2. destruct (Z.eqb_spec (h_amount h) 0); [lia|]. unfold settled. rewrite HI. reflexivity.
Qed.
(** An entry about nothing can be written but not read. *)
Theorem C89_zero_refuted e h : codec_laws -> ev_content e = hist_content encrypt tags_json h -> ev_tags e = hist_tags h -> h_amount h = 0 -> h_refs h = [] -> hist_parse decrypt json_tags e = Err.
Proof.
  intros (L1 & L2 & L3) C T A R. unfold hist_parse. rewrite C. unfold hist_content. rewrite L1. unfold all_tags. match goal with |- context [tags_json ?x] => set (ts := x) end. pose proof (L3 ts) as NE. destruct (tags_json ts) as [|c j] eqn:J; [congruence|]. rewrite <- J, L2, T.
  unfold ts, hist_tags. rewrite R, A. destruct (h_in h); reflexivity.
Qed.
(** Reading takes only entries that say which way and how much. *)
Lemma hist_fold_dir ts h h' m : hist_fold ts h true = Ok (h', m) -> m = false -> exists v rest, In (B "direction" :: v :: rest) ts /\ (v = B "in" \/ v = B "out").
Proof.
  revert h. induction ts as [|t ts IH]; intros h H F; cbn [hist_fold] in H. { congruence. }
  assert (R : forall h, hist_fold ts h true = Ok (h', m) -> exists v rest, In (B "direction" :: v :: rest) (t :: ts) /\ (v = B "in" \/ v = B "out")). { intros h0 H0. destruct (IH h0 H0 F) as (v & rest & I & O). exists v, rest. split; [right; exact I|exact O]. }
  destruct t as [|k [|v rest]]; try exact (R _ H). destruct (seqb_spec k (B "direction")) as [->|].
  - exists v, rest. split; [left; reflexivity|]. destruct (seqb_spec v (B "in")); [auto|]. destruct (seqb_spec v (B "out")); [auto|discriminate].
  - destruct (seqb k (B "amount")). { destruct (parse_uint v); [exact (R _ H)|discriminate]. }
    destruct (seqb k (B "e")); [|exact (R _ H)]. destruct rest as [|x [|mark rest]]; try discriminate. destruct (negb (valid_32byte_hex v)); [discriminate|]. destruct (seqb mark (B "created")); [exact (R _ H)|]. destruct (seqb mark (B "destroyed")); [exact (R _ H)|]. destruct (seqb mark (B "redeemed")); [exact (R _ H)|discriminate].
Qed.
Theorem C89_complete e h plain ts : decrypt (ev_content e) = Some plain -> all_tags json_tags e plain = Some ts -> hist_parse decrypt json_tags e = Ok h -> h_amount h <> 0 /\ exists v rest, In (B "direction" :: v :: rest) ts /\ (v = B "in" \/ v = B "out").
Proof.
  intros D T H. unfold hist_parse in H. rewrite D, T in H. destruct (hist_fold ts (mkH false 0 []) true) as [[h' m]| |] eqn:F; try discriminate. cbn [obind fst snd] in H. destruct (Z.eqb_spec (h_amount h') 0); [discriminate|]. destruct m; [discriminate|]. assert (h' = h) as -> by congruence. split; [assumption|]. exact (hist_fold_dir _ _ _ _ F eq_refl).
Qed.
End Events.

(** A codec that meets the laws: c before each character, s after each string, t after each tag. *)
Definition put_tags (ts : list tag) : str := flat_map (fun t => flat_map (fun s => flat_map (fun c => ["c"%char; c]) s ++ B "s") t ++ B "t") ts ++ B "e".
Fixpoint get_tags (s : str) (cur : str) (t : tag) (acc : list tag) : option (list tag) :=
  match s with
  | [] => None
  | k :: r => if ceqb k "c"%char then match r with c :: r' => get_tags r' (cur ++ [c]) t acc | [] => None end
              else if ceqb k "s"%char then get_tags r [] (t ++ [cur]) acc
              else if ceqb k "t"%char then get_tags r [] [] (acc ++ [t])
              else Some acc
  end.
Lemma put_get ts : get_tags (put_tags ts) [] [] [] = Some ts.
Proof.
  assert (S : forall s cur t acc r, get_tags (flat_map (fun c => ["c"%char; c]) s ++ r) cur t acc = get_tags r (cur ++ s) t acc). { induction s as [|c s IH]; intros cur t acc r; cbn [flat_map app]; [rewrite app_nil_r; reflexivity|]. cbn [get_tags]. change (ceqb "c" "c") with true. cbn iota. rewrite IH, <- app_assoc. reflexivity. }
  assert (T : forall l t acc r, get_tags (flat_map (fun s => flat_map (fun c => ["c"%char; c]) s ++ B "s") l ++ r) [] t acc = get_tags r [] (t ++ l) acc). { induction l as [|s l IH]; intros t acc r; cbn [flat_map app]; [rewrite app_nil_r; reflexivity|]. rewrite <- !app_assoc, S. cbn [app]. change (B "s" ++ ?x) with ("s"%char :: x). cbn [get_tags]. change (ceqb "s" "c") with false. change (ceqb "s" "s") with true. cbn iota. rewrite IH, <- app_assoc. reflexivity. }
  assert (G : forall l acc, get_tags (flat_map (fun t => flat_map (fun s => flat_map (fun c => ["c"%char; c]) s ++ B "s") t ++ B "t") l ++ B "e") [] [] acc = Some (acc ++ l)). { induction l as [|t l IH]; intro acc; cbn [flat_map app]; [rewrite app_nil_r; reflexivity|]. rewrite <- !app_assoc, T. change (B "t" ++ ?x) with ("t"%char :: x). cbn [get_tags]. change (ceqb "t" "c") with false. change (ceqb "t" "s") with false. change (ceqb "t" "t") with true. cbn iota. rewrite IH, <- app_assoc. reflexivity. }
  exact (G ts []).
Qed.
Lemma toy_codec : codec_laws (fun s => s) (fun s => Some s) put_tags (fun s => get_tags s [] [] []).
Proof. split; [reflexivity|]. split; [exact put_get|]. intros ts E. unfold put_tags in E. apply app_eq_nil in E. destruct E as [_ E]. discriminate. Qed.
Definition meta_of (t : Z) (w : wmeta) : event := mkEvent [] [] t 17375 [] (meta_content (fun s => s) put_tags w) [].
Example C88_applies : let w1 := mkW None (Some (B "key")) [B "https://new"] in let w2 := mkW None None [B "https://old1"; B "https://old2"] in
  wm_mints (meta_event (fun s => Some s) (fun s => get_tags s [] [] []) (fun k => k) (meta_event (fun s => Some s) (fun s => get_tags s [] [] []) (fun k => k) (mkW None None []) (meta_of 200 w1)) (meta_of 100 w2)) = [B "https://old1"; B "https://old2"].
Proof. cbv zeta. apply (C88_newest_loses_refuted (fun s => s) (fun s => Some s) put_tags (fun s => get_tags s [] [] []) (fun k => k) _ (mkW None (Some (B "key")) [B "https://new"]) (mkW None None [B "https://old1"; B "https://old2"])); try reflexivity; try exact toy_codec; try discriminate. Qed.
Definition an_id : str := repeat "a"%char 64.
Definition entry : hentry := mkH false 22 [mkRef an_id false true; mkRef an_id false false; mkRef an_id true false].
Example C89_applies : hist_parse (fun s => Some s) (fun s => get_tags s [] [] []) (mkEvent [] [] 5 7376 (hist_tags entry) (hist_content (fun s => s) put_tags entry) []) = Ok (mkH false 22 [mkRef an_id false false; mkRef an_id true false; mkRef an_id true true]).
Proof. rewrite (C89 (fun s => s) (fun s => Some s) put_tags (fun s => get_tags s [] [] []) (fun k => k) entry _ toy_codec); [reflexivity|reflexivity|reflexivity|cbn; lia|repeat constructor]. Qed.

(** * C90: nutzap information and eligible mints *)
Lemma info_mints xok norm ms i rest : Forall (fun m => norm m = m) ms -> info_fold xok norm (map (fun m => [B "mint"; m]) ms ++ rest) i = info_fold xok norm rest (mkInfo (i_pubkey i) (i_mints i ++ ms) (i_relays i)).
Proof.
  intro N. revert i. induction N as [|m ms Nm _ IH]; intro i; cbn [map app]. { rewrite app_nil_r. destruct i; reflexivity. }
  cbn [info_fold]. change (seqb (B "mint") (B "mint")) with true. cbn iota. rewrite IH. cbn [i_pubkey i_mints i_relays]. rewrite Nm, <- app_assoc. reflexivity.
Qed.
Lemma info_relays xok norm rs i rest : info_fold xok norm (map (fun m => [B "relay"; m]) rs ++ rest) i = info_fold xok norm rest (mkInfo (i_pubkey i) (i_mints i) (i_relays i ++ rs)).
Proof.
  revert i. induction rs as [|m ms IH]; intro i; cbn [map app]. { rewrite app_nil_r. destruct i; reflexivity. }
  cbn [info_fold]. change (seqb (B "relay") (B "mint")) with false. change (seqb (B "relay") (B "relay")) with true. cbn iota. rewrite IH. cbn [i_pubkey i_mints i_relays]. rewrite <- app_assoc. reflexivity.
Qed.
Theorem C90_round_trip xok norm i old : Forall (fun m => norm m = m) (i_mints i) -> (i_pubkey i = [] \/ valid_pubkey xok (i_pubkey i) = true) ->
  info_parse xok norm old (info_tags i) = mkInfo (match i_pubkey i with [] => i_pubkey old | p => p end) (i_mints i) (i_relays old ++ i_relays i).
Proof.
  intros N V. unfold info_parse, info_tags. rewrite info_mints by exact N. rewrite info_relays. cbn [i_pubkey i_mints i_relays app]. destruct (i_pubkey i) as [|c p] eqn:P; [reflexivity|]. destruct V as [V|V]; [discriminate|].
  cbn [info_fold]. change (seqb (B "pubkey") (B "mint")) with false. change (seqb (B "pubkey") (B "relay")) with false. change (seqb (B "pubkey") (B "pubkey")) with true. cbn iota. rewrite V. reflexivity.
Qed.
Corollary C90_fresh xok norm i : Forall (fun m => norm m = m) (i_mints i) -> (i_pubkey i = [] \/ valid_pubkey xok (i_pubkey i) = true) -> info_parse xok norm (mkInfo [] [] []) (info_tags i) = i.
Proof. intros N V. rewrite C90_round_trip by assumption. cbn. destruct i as [[|c p] ms rs]; reflexivity. Qed.
(** Read into an Info that is in use, the old relays and an old key stay. *)
Theorem C90_reuse_refuted xok norm : exists i old, info_parse xok norm old (info_tags i) <> i /\ i_relays (info_parse xok norm old (info_tags i)) = [B "wss://old"; B "wss://new"] /\ i_relays i = [B "wss://new"].
Proof. exists (mkInfo [] [] [B "wss://new"]), (mkInfo [] [] [B "wss://old"]). split; [discriminate|]. split; reflexivity. Qed.

Lemma index_of_in m l i : index_of m l = Some i -> nth_error l i = Some m /\ (i < length l)%nat.
Proof.
  revert i. induction l as [|x l IH]; intros i H; [discriminate|]. cbn in H. destruct (seqb_spec x m) as [->|]; [injection H as <-; cbn; split; [reflexivity|lia]|]. destruct (index_of m l) as [j|]; [|discriminate]. injection H as <-. destruct (IH j eq_refl). cbn. split; [assumption|lia].
Qed.
Lemma index_of_some m l : In m l -> exists i, index_of m l = Some i.
Proof. induction l as [|x l IH]; intro H; [destruct H|]. destruct H as [H|H]; cbn. { subst x. destruct (seqb_spec m m); [eauto|congruence]. } destruct (seqb x m); [eauto|]. destruct (IH H) as [i ->]. cbn. eauto. Qed.
Lemma last_held m l t : In t l -> tk_mint t = m -> exists a t b, l = a ++ t :: b /\ tk_mint t = m /\ held m b = [].
Proof.
  revert t. induction l as [|x l IH]; intros t It M; [destruct It|]. destruct (in_dec (list_eq_dec ascii_dec) m (map tk_mint l)) as [Y|N].
  - apply in_map_iff in Y. destruct Y as (u & Mu & Iu). destruct (IH u Iu Mu) as (a & t' & b & -> & R). exists (x :: a), t', b. split; [reflexivity|exact R].
  - destruct It as [->|It]; [|destruct N; rewrite <- M; apply in_map; exact It]. exists [], t, l. split; [reflexivity|]. split; [exact M|]. apply (fun H => proj1 (none_held m l H)). intros q Iq Eq. apply N. rewrite <- Eq. apply in_map. exact Iq.
Qed.
(** A mint is tried when, and only when, it is one of theirs and we hold more there than the amount, one percent and two. *)
Theorem C90_eligible theirs ts target : positive_proofs (all_proofs ts) -> worth ts < 18446744073709551616 -> 0 <= target < 90000000000000000 ->
  forall m, In m (eligible_mints theirs ts target) <-> In m theirs /\ (exists t, In t ts /\ tk_mint t = m) /\ target * 101 / 100 + 2 < total (held m ts).
Proof.
  intros P W T. unfold eligible_mints.
  assert (G : forall ts2 ts1 have, ts = ts1 ++ ts2 -> length have = length theirs -> (forall m i, index_of m theirs = Some i -> nth i have 0 = total (held m ts1)) ->
    forall m, In m (eligible theirs ts2 target have) <-> In m theirs /\ exists a t b, ts2 = a ++ t :: b /\ tk_mint t = m /\ target * 101 / 100 + 2 < total (held m (ts1 ++ a ++ [t]))).
  { induction ts2 as [|t ts2 IH]; intros ts1 have E L HV m; cbn [eligible]. { split; [intros []|]. intros (_ & a & t & b & Q & _). destruct a; discriminate. }
    assert (E' : ts = (ts1 ++ [t]) ++ ts2) by (rewrite <- app_assoc; exact E).
    assert (HH : forall m, tk_mint t = m -> held m (ts1 ++ [t]) = held m ts1 ++ tk_proofs t). { intros m' Q. rewrite held_app. f_equal. unfold held. cbn [filter]. rewrite Q. destruct (seqb_spec m' m'); [cbn; apply app_nil_r|congruence]. }
    assert (HN : forall m, tk_mint t <> m -> held m (ts1 ++ [t]) = held m ts1). { intros m' Q. rewrite held_app. unfold held at 2. cbn [filter]. destruct (seqb_spec (tk_mint t) m'); [congruence|]. apply app_nil_r. }
    assert (STEP : forall have', length have' = length theirs -> (forall m i, index_of m theirs = Some i -> nth i have' 0 = total (held m (ts1 ++ [t]))) -> (In m (eligible theirs ts2 target have') <-> In m theirs /\ exists a t0 b, t :: ts2 = (t :: a) ++ t0 :: b /\ tk_mint t0 = m /\ target * 101 / 100 + 2 < total (held m (ts1 ++ (t :: a) ++ [t0])))).
    { intros have' L' HV'. rewrite (IH (ts1 ++ [t]) have' E' L' HV' m). split; intros [I (a & t0 & b & Q & M & R)]; (split; [exact I|]); exists a, t0, b.
      - rewrite Q. split; [reflexivity|]. split; [exact M|]. rewrite <- !app_assoc in R. exact R.
      - injection Q as Q. split; [exact Q|]. split; [exact M|]. rewrite <- !app_assoc. exact R. }
    destruct (index_of (tk_mint t) theirs) as [i|] eqn:IX.
    - destruct (index_of_in _ _ _ IX) as [NI LI].
      assert (HB : 0 <= total (held (tk_mint t) (ts1 ++ [t])) < 18446744073709551616).
      { rewrite E' in P, W. rewrite all_proofs_app in P. apply positive_app in P. destruct P as [P1 P2]. rewrite worth_app in W. pose proof (held_le (tk_mint t) (ts1 ++ [t]) P1). pose proof (total_positive _ P2) as X. rewrite <- worth_total in X. lia. }
      assert (PT : positive_proofs (tk_proofs t)). { rewrite E' in P. rewrite !all_proofs_app in P. apply positive_app in P. destruct P as [P1 _]. apply positive_app in P1. destruct P1 as [_ P1]. cbn in P1. rewrite app_nil_r in P1. exact P1. }
      assert (P1 : positive_proofs (held (tk_mint t) ts1)). { rewrite E in P. rewrite all_proofs_app in P. apply positive_app in P. destruct P as [P1 _]. apply Forall_forall. intros p I. unfold held in I. apply in_flat_map in I. destruct I as (u & I & J). apply filter_In in I. apply (proj1 (Forall_forall _ _) P1). apply in_flat_map. exists u. split; [apply I|exact J]. }
      rewrite (HV _ _ IX), (HH _ eq_refl) in *. rewrite total_app in HB. pose proof (total_positive _ PT). pose proof (total_positive _ P1).
      rewrite (amount_of_total (tk_proofs t)) by lia. rewrite !(w64_small (target * 101)) by lia. rewrite (w64_small (total _ + _)) by lia. rewrite (w64_small (_ / 100 + 2)) by lia.
      rewrite in_app_iff, STEP.
      + split.
        * intros [I|[I (a & t0 & b & Q)]].
          -- destruct (Z.ltb_spec (target * 101 / 100 + 2) (total (held (tk_mint t) ts1) + total (tk_proofs t))) as [R|]; [|destruct I]. destruct I as [<-|[]]. split; [eapply nth_error_In; exact NI|]. exists [], t, ts2. split; [reflexivity|]. split; [reflexivity|]. cbn [app]. rewrite (HH _ eq_refl), total_app. exact R.
          -- split; [exact I|]. exists (t :: a), t0, b. exact Q.
        * intros [I (a & t0 & b & Q & M & R)]. destruct a as [|u a].
          -- cbn [app] in Q, R. injection Q as <- <-. left. rewrite <- M in R |- *. rewrite (HH _ eq_refl), total_app in R. destruct (Z.ltb_spec (target * 101 / 100 + 2) (total (held (tk_mint t) ts1) + total (tk_proofs t))); [left; reflexivity|lia].
          -- right. split; [exact I|]. exists a, t0, b. cbn [app] in Q. injection Q as <- Q. rewrite Q. auto.
      + rewrite upd_length. exact L.
      + intros m' j IJ. destruct (Nat.eq_dec i j) as [<-|NJ].
        * assert (m' = tk_mint t) as ->. { apply index_of_in in IJ. destruct IJ as [IJ _]. congruence. } rewrite (HH _ eq_refl), total_app. apply nth_error_nth. apply nth_upd_same. lia.
        * assert (tk_mint t <> m') as NM by (intros <-; congruence). rewrite (HN _ NM). rewrite <- (HV _ _ IJ). pose proof (nth_upd_other have i j (total (held (tk_mint t) ts1) + total (tk_proofs t)) NJ) as U.
          destruct (nth_error have j) eqn:HJ; [rewrite (nth_error_nth _ _ 0 U); symmetry; apply nth_error_nth; exact HJ|]. apply nth_error_None in HJ. rewrite !nth_overflow; [reflexivity|exact HJ|rewrite upd_length; exact HJ].
    - rewrite STEP; [|exact L|].
      + split; intros [I (a & t0 & b & Q & M & R)]; (split; [exact I|]).
        * exists (t :: a), t0, b. auto.
        * destruct a as [|u a]. { cbn in Q. injection Q as <- <-. destruct (index_of_some m theirs I) as [i Q]. congruence. } exists a, t0, b. cbn [app] in Q. injection Q as <- Q. rewrite Q. auto.
      + intros m' j IJ. rewrite (HV _ _ IJ), HN; [reflexivity|]. intros <-. congruence. }
  intro m. rewrite (G ts [] (map (fun _ => 0) theirs) eq_refl).
  - split.
    + intros [I (a & t & b & E & M & R)]. split; [exact I|]. split. { exists t. split; [rewrite E; apply in_or_app; right; left; reflexivity|exact M]. }
      cbn [app] in R. assert (total (held m (a ++ [t])) <= total (held m ts)); [|lia]. assert (ts = (a ++ [t]) ++ b) as X by (rewrite <- app_assoc; exact E). rewrite X, (held_app m (a ++ [t]) b), total_app. rewrite X, all_proofs_app in P. apply positive_app in P. destruct P as [_ P]. pose proof (held_le m b P). lia.
    + intros (I & (t & It & M) & R). split; [exact I|].
      destruct (last_held m ts t It M) as (a & t' & b & E & M' & HB). exists a, t', b. split; [exact E|]. split; [exact M'|]. cbn [app]. assert (X : ts = (a ++ [t']) ++ b) by (rewrite <- app_assoc; exact E). rewrite X, (held_app m (a ++ [t']) b), HB, app_nil_r in R. exact R.
  - apply map_length.
  - intros m' i IX. change (held m' []) with (@nil proof). cbn [total fold_right]. clear. revert i. induction theirs as [|x l IH]; intros [|i]; cbn; auto.
Qed.
Example C90_eligible_applies : eligible_mints [B "n"; B "m"] [mkT (B "m") [mkP 64 [] Free] [] None; mkT (B "x") [mkP 512 [] Free] [] None; mkT (B "n") [mkP 64 [] Free] [] None; mkT (B "m") [mkP 64 [] Free] [] None] 100 = [B "m"].
Proof. reflexivity. Qed.
(** A mint where we hold exactly the amount, with no fee to pay, is not tried. *)
Theorem C90_exact_amount_refuted : eligible_mints [B "m"] [mkT (B "m") [mkP 64 [] Free] [] None] 64 = [].
Proof. reflexivity. Qed.

(** Nutzaps are never locked to the recipient: the key in their information has 32 bytes, and the parser that makes the lock takes 33 or 65. *)
Lemma swap_locks M known mint ps target k signer p c : signs_as_asked M -> swap_proofs M known mint ps target k signer = Ok (p, c) -> Forall (fun x => pr_lock x = k) p.
Proof.
  intros HS H. apply (swap_ok _ _ _ _ _ _ _ _ _ HS) in H. destruct H as (kss & out & _ & SA & _ & _ & _ & L & _). apply split_ok in SA. destruct SA as (_ & _ & _ & LK). apply Forall_forall. intros x I. apply (in_map pr_lock) in I. rewrite L in I. apply in_map_iff in I. destruct I as (o & <- & I). apply LK, in_or_app. left. exact I.
Qed.
Lemma send_locks M known ts amount specific p2pk id s : signs_as_asked M -> send M known ts amount specific p2pk id = Ok s -> Forall (fun x => pr_lock x = match p2pk with Some k => P2pk k | None => Free end) (se_proofs s).
Proof.
  intros HS H. unfold send in H. destruct (get_proofs M ts amount specific []) as [[c fee]| |]; try discriminate. cbn [obind fst snd] in H. destruct (_ && negb _); [discriminate|]. destruct (swap_proofs _ _ _ _ _ _ _) as [[p ch]| |] eqn:W; try discriminate. cbn [obind fst snd] in H.
  destruct (save_change _ _ _ _ _) as [r| |]; try discriminate. cbn [obind] in H. match type of H with Ok ?x = Ok _ => assert (s = x) as -> by congruence end. cbn [se_proofs]. exact (swap_locks _ _ _ _ _ _ _ _ _ HS W).
Qed.
Lemma redeem_free M mint invoice amount ps : redeem M mint invoice amount = Some ps -> Forall (fun x => pr_lock x = Free) ps.
Proof.
  unfold redeem. destruct (m_active M mint) as [[ks has]|]; [|discriminate]. destruct (m_mint M mint invoice _) as [sigs|]; [|discriminate]. destruct (construct _ _ _) as [q| |] eqn:C; try discriminate. intro H. assert (q = ps) as -> by congruence. apply construct_ok in C. destruct C as (_ & _ & L & _).
  apply Forall_forall. intros x I. apply (in_map pr_lock) in I. rewrite L in I. apply in_map_iff in I. destruct I as (o & <- & I). assert (J : In o (map (fun x => mkO x Free) (amount_split amount))). { rewrite <- (firstn_skipn (length sigs)). apply in_or_app. left. exact I. } apply in_map_iff in J. destruct J as (z & <- & _). reflexivity.
Qed.
Lemma info_pubkey xok norm ts i : (i_pubkey i = [] \/ valid_pubkey xok (i_pubkey i) = true) -> i_pubkey (info_fold xok norm ts i) = [] \/ valid_pubkey xok (i_pubkey (info_fold xok norm ts i)) = true.
Proof.
  revert i. induction ts as [|t ts IH]; intros i H; [exact H|]. cbn [info_fold]. destruct t as [|k [|v rest]]; try (apply IH; exact H). apply IH. destruct (seqb k (B "mint")). { destruct rest; [exact H|]. destruct (existsb _ _); exact H. } destruct (seqb k (B "relay")); [exact H|]. destruct (seqb k (B "pubkey")); [|exact H]. destruct (valid_pubkey xok v) eqn:V; [right; exact V|exact H].
Qed.
Theorem C90_nutzap_unlocked_refuted xok parse_pub norm M invoice_sats known ts tags amount id ts' ps : signs_as_asked M ->
  (forall b, xok b = true -> length b = 32%nat) -> (forall b k, parse_pub b = Some k -> length b = 33%nat \/ length b = 65%nat) ->
  nutzap parse_pub M invoice_sats known ts (info_parse xok norm (mkInfo [] [] []) tags) amount id = Ok (ts', ps) -> Forall (fun p => pr_lock p = Free) ps.
Proof.
  intros HS HX HP H. unfold nutzap in H. destruct (match i_mints _ with [] => _ | _ => _ end); [discriminate|]. set (i := info_parse xok norm (mkInfo [] [] []) tags) in *.
  assert (NP : with_p2pk parse_pub (i_pubkey i) = None).
  { unfold with_p2pk. destruct (parse_pub (hex_prefix (i_pubkey i))) as [k|] eqn:E; [|reflexivity]. apply HP in E. destruct (info_pubkey xok norm tags (mkInfo [] [] []) (or_introl eq_refl)) as [Q|Q]; fold (info_parse xok norm (mkInfo [] [] []) tags) in Q; change (info_fold xok norm tags (mkInfo [] [] [])) with i in Q.
    - rewrite Q in E. cbn in E. lia.
    - unfold valid_pubkey in Q. apply andb_prop in Q. destruct Q as [_ Q]. apply HX in Q. lia. }
  destruct (nutzap_own _ _ _ _ _ _ _ _) as [[r|]| |] eqn:O; try discriminate; cbn [obind] in H.
  - assert (r = (ts', ps)) as -> by congruence. revert O. generalize (eligible_mints (i_mints i) ts amount). intro ms. induction ms as [|m ms IH]; cbn [nutzap_own]; [discriminate|]. rewrite NP. destruct (send M known ts amount m None id) as [s| |] eqn:S; [|exact IH|discriminate].
    intro O. assert (ps = se_proofs s) as -> by congruence. exact (send_locks _ _ _ _ _ _ _ _ HS S).
  - revert H. generalize (i_mints i). intro ms. induction ms as [|m ms IH]; cbn [nutzap_external]; [discriminate|]. destruct (m_mint_quote M m amount) as [q|] eqn:Q; [|exact IH]. unfold send_external. rewrite Q. destruct (invoice_sats q) as [sats| |]; try discriminate. cbn [obind]. destruct (pay M ts q sats [] id) as [s| |]; try discriminate. cbn [obind].
    destruct (redeem M m q amount) as [ps'|] eqn:R; [|discriminate]. intro H. assert (ps' = ps) as -> by congruence. exact (redeem_free _ _ _ _ _ R).
Qed.

(** The mints of an information event are those of its "mint" tags that name no unit or name "sat" among their units. *)
Theorem C90_mints_read xok norm old ts m : In m (i_mints (info_parse xok norm old ts)) <-> exists v units, In (B "mint" :: v :: units) ts /\ m = norm v /\ (units = [] \/ In (B "sat") units).
Proof.
  assert (G : forall ts i, In m (i_mints (info_fold xok norm ts i)) <-> In m (i_mints i) \/ exists v units, In (B "mint" :: v :: units) ts /\ m = norm v /\ (units = [] \/ In (B "sat") units)).
  { clear ts. induction ts as [|t ts IH]; intro i. { cbn. split; [auto|]. intros [Q|(v & u & [] & _)]. exact Q. }
    assert (K : forall X : Prop, (X <-> In m (i_mints i) \/ exists v units, B "mint" :: v :: units = t /\ m = norm v /\ (units = [] \/ In (B "sat") units)) -> (X \/ (exists v units, In (B "mint" :: v :: units) ts /\ m = norm v /\ (units = [] \/ In (B "sat") units))) <->
      (In m (i_mints i) \/ exists v units, In (B "mint" :: v :: units) (t :: ts) /\ m = norm v /\ (units = [] \/ In (B "sat") units))).
    { intros X HX. rewrite HX. split.
      - intros [[Q|(v & u & Q & R)]|(v & u & Q & R)]; [left; exact Q| |]; right; exists v, u; (split; [|exact R]); [left; symmetry; exact Q|right; exact Q].
      - intros [Q|(v & u & [Q|Q] & R)]; [left; left; exact Q| |]; [left; right; exists v, u; split; [symmetry; exact Q|exact R]|right; exists v, u; split; [exact Q|exact R]]. }
    cbn [info_fold]. destruct t as [|k [|v rest]].
    - rewrite IH. apply K. split; [auto|]. intros [Q|(v & u & Q & _)]; [exact Q|discriminate].
    - rewrite IH. apply K. split; [auto|]. intros [Q|(v & u & Q & _)]; [exact Q|discriminate].
    - rewrite IH. apply K. clear K IH. destruct (seqb_spec k (B "mint")) as [->|NK].
      + destruct rest as [|u rest].
        * cbn [i_mints]. rewrite in_app_iff. cbn [In]. split; [intros [Q|[Q|[]]]; [auto|right; exists v, []; auto]|]. intros [Q|(v' & u & Q & R & _)]; [auto|]. right. left. congruence.
        * destruct (existsb (seqb (B "sat")) (u :: rest)) eqn:E.
          -- apply existsb_exists in E. destruct E as (x & X1 & X2). apply seqb_eq in X2. subst x. cbn [i_mints]. rewrite in_app_iff. cbn [In] in *. split; [intros [Q|[Q|[]]]; [auto|right; exists v, (u :: rest); auto]|]. intros [Q|(v' & u' & Q & R & _)]; [auto|]. right. left. congruence.
          -- split; [auto|]. intros [Q|(v' & u' & Q & R & [W|W])]; [exact Q|congruence|]. exfalso. assert (u' = u :: rest) as -> by congruence. assert (existsb (seqb (B "sat")) (u :: rest) = true) by (apply existsb_exists; exists (B "sat"); split; [exact W|apply seqb_refl]). congruence.
      + assert (NM : forall j, i_mints j = i_mints i -> In m (i_mints j) <-> In m (i_mints i) \/ exists v0 units, B "mint" :: v0 :: units = k :: v :: rest /\ m = norm v0 /\ (units = [] \/ In (B "sat") units)).
        { intros j ->. split; [auto|]. intros [Q|(v' & u' & Q & _)]; [exact Q|]. exfalso. apply NK. congruence. }
        destruct (seqb k (B "relay")); [apply NM; reflexivity|]. destruct (seqb k (B "pubkey")); [|apply NM; reflexivity]. destruct (valid_pubkey xok v); apply NM; reflexivity. }
  unfold info_parse. rewrite G. cbn [i_mints In]. tauto.
Qed.
Example C90_mints_example : i_mints (info_parse (fun _ => true) (fun v => v) (mkInfo [] [] []) [[B "mint"; B "a"]; [B "mint"; B "b"; B "usd"]; [B "mint"; B "c"; B "usd"; B "sat"]; [B "mint"]]) = [B "a"; B "c"].
Proof. reflexivity. Qed.
(** Somebody whose information has no mint or no key cannot be sent a nutzap. *)
Theorem C90_not_accepted parse_pub M invoice_sats known ts i amount id : i_mints i = [] \/ i_pubkey i = [] -> nutzap parse_pub M invoice_sats known ts i amount id = Err.
Proof. intro H. unfold nutzap. destruct (i_mints i); [reflexivity|]. destruct H as [H|H]; [discriminate|]. rewrite H. reflexivity. Qed.
(** When no mint of ours can send, the money goes through the first of their mints that gives a quote; without one it is an error. *)
Theorem C90_goes_outside parse_pub M invoice_sats known ts i amount id : i_mints i <> [] -> i_pubkey i <> [] ->
  (forall m, In m (eligible_mints (i_mints i) ts amount) -> send M known ts amount m (with_p2pk parse_pub (i_pubkey i)) id = Err) ->
  (forall pre m post q, i_mints i = pre ++ m :: post -> Forall (fun m => m_mint_quote M m amount = None) pre -> m_mint_quote M m amount = Some q -> nutzap parse_pub M invoice_sats known ts i amount id = send_external M ts m amount invoice_sats id) /\
  (Forall (fun m => m_mint_quote M m amount = None) (i_mints i) -> nutzap parse_pub M invoice_sats known ts i amount id = Err).
Proof.
  intros NM NP HS. assert (O : nutzap_own parse_pub M known ts amount (i_pubkey i) id (eligible_mints (i_mints i) ts amount) = Ok None).
  { revert HS. generalize (eligible_mints (i_mints i) ts amount). intro ms. induction ms as [|m ms IH]; intro HS; [reflexivity|]. cbn [nutzap_own]. rewrite HS by (left; reflexivity). apply IH. intros x X. apply HS. right. exact X. }
  assert (R : nutzap parse_pub M invoice_sats known ts i amount id = nutzap_external M invoice_sats ts amount id (i_mints i)).
  { unfold nutzap. rewrite O. destruct (i_mints i); [contradiction|]. destruct (i_pubkey i); [contradiction|]. reflexivity. }
  rewrite R. clear. split.
  - intros pre m post q -> F Q. induction F as [|x pre HX F IH]; cbn [app nutzap_external]; [rewrite Q; reflexivity|]. rewrite HX. exact IH.
  - intro F. induction F as [|x l HX F IH]; cbn [nutzap_external]; [reflexivity|]. rewrite HX. exact IH.
Qed.
(** The first of our mints that can send does. *)
Theorem C90_sends parse_pub M invoice_sats known ts i amount id pre m post s : i_mints i <> [] -> i_pubkey i <> [] -> eligible_mints (i_mints i) ts amount = pre ++ m :: post ->
  Forall (fun m => send M known ts amount m (with_p2pk parse_pub (i_pubkey i)) id = Err) pre -> send M known ts amount m (with_p2pk parse_pub (i_pubkey i)) id = Ok s -> nutzap parse_pub M invoice_sats known ts i amount id = Ok (se_tokens s, se_proofs s).
Proof.
  intros NM NP HE F HS. unfold nutzap. rewrite HE. assert (O : nutzap_own parse_pub M known ts amount (i_pubkey i) id (pre ++ m :: post) = Ok (Some (se_tokens s, se_proofs s))). { clear HE. induction F as [|x pre HX F IH]; cbn [app nutzap_own]; [rewrite HS; reflexivity|]. rewrite HX. exact IH. }
  rewrite O. destruct (i_mints i); [contradiction|]. destruct (i_pubkey i); [contradiction|]. reflexivity.
Qed.
(** A crash of one of the sends is not caught. *)
Theorem C90_crash parse_pub M invoice_sats known ts i amount id pre m post : i_mints i <> [] -> i_pubkey i <> [] -> eligible_mints (i_mints i) ts amount = pre ++ m :: post ->
  Forall (fun m => send M known ts amount m (with_p2pk parse_pub (i_pubkey i)) id = Err) pre -> send M known ts amount m (with_p2pk parse_pub (i_pubkey i)) id = Panic -> nutzap parse_pub M invoice_sats known ts i amount id = Panic.
Proof.
  intros NM NP HE F HS. unfold nutzap. rewrite HE. assert (O : nutzap_own parse_pub M known ts amount (i_pubkey i) id (pre ++ m :: post) = Panic). { clear HE. induction F as [|x pre HX F IH]; cbn [app nutzap_own]; [rewrite HS; reflexivity|]. rewrite HX. exact IH. }
  rewrite O. destruct (i_mints i); [contradiction|]. destruct (i_pubkey i); [contradiction|]. reflexivity.
Qed.

(** * C91: verifying a nutzap *)
Section Verify.
Variable json_proof : str -> option zproof.
Variable has_key : Z -> bool.
Variable z_parses : zproof -> bool.
Variable dleq_ok : zproof -> bool.
Notation verify := (verify_nutzap json_proof has_key z_parses dleq_ok).
(** the proofs of a nutzap that can be read *)
Definition readable (ts : list tag) : list zproof := flat_map (fun t => match t with k :: v :: _ => if seqb k (B "proof") then match json_proof v with Some z => [z] | None => [] end else [] | _ => [] end) ts.
Lemma verify_fold_ok ts sats n : 0 <= sats < 18446744073709551616 -> verify_fold json_proof has_key z_parses dleq_ok ts sats = Ok (n, true) ->
  n = w64 (sats + sum (map z_amount (readable ts))) /\ Forall (fun z => z_dleq z = true /\ z_parses z = true /\ has_key (z_amount z) = true /\ dleq_ok z = true) (readable ts).
Proof.
  revert sats. induction ts as [|t ts IH]; intros sats SB H; cbn [verify_fold] in H. { assert (sats = n) as -> by congruence. cbn. rewrite Z.add_0_r, w64_small by exact SB. split; [reflexivity|constructor]. }
  unfold readable. cbn [flat_map]. fold (readable ts). destruct t as [|k [|v rest]]; try exact (IH _ SB H). destruct (seqb k (B "proof")); cbn [negb] in H; [|exact (IH _ SB H)]. destruct (json_proof v) as [z|]; [|exact (IH _ SB H)].
  destruct (z_dleq z) eqn:Z1; [|discriminate]. destruct (z_parses z) eqn:Z2; [|discriminate]. destruct (has_key (z_amount z)) eqn:Z3; [|discriminate]. destruct (dleq_ok z) eqn:Z4; [|discriminate]. cbn [negb] in H. apply IH in H; [|apply w64_range]. destruct H as [-> F]. cbn [app map sum fold_right]. fold (sum (map z_amount (readable ts))). rewrite w64_add, Z.add_assoc. split; [reflexivity|constructor; auto].
Qed.
(** Accepted, every readable proof was signed by the mint, and the sum is theirs. *)
Theorem C91_accepts ts n : verify ts = Ok (n, true) -> n = w64 (sum (map z_amount (readable ts))) /\ forall z, In z (readable ts) -> z_dleq z = true /\ has_key (z_amount z) = true /\ dleq_ok z = true.
Proof. intro H. apply verify_fold_ok in H; [|lia]. destruct H as [-> F]. split; [reflexivity|]. intros z I. destruct (proj1 (Forall_forall _ _) F z I) as (A & _ & C & D). auto. Qed.
(** A proof of the wrong mint gives nothing. *)
Theorem C91_rejects ts n : verify ts = Ok (n, false) -> n = 0.
Proof.
  unfold verify_nutzap. generalize 0 at 1. induction ts as [|t ts IH]; intros sats H; cbn [verify_fold] in H; [discriminate|]. destruct t as [|k [|v rest]]; try exact (IH _ H). destruct (seqb k (B "proof")); cbn [negb] in H; [|exact (IH _ H)]. destruct (json_proof v) as [z|]; [|exact (IH _ H)].
  destruct (z_dleq z); [|discriminate]. cbn [negb] in H. destruct (z_parses z); cbn [negb] in H; [|congruence]. destruct (has_key (z_amount z)); [|discriminate]. cbn [negb] in H. destruct (dleq_ok z); cbn [negb] in H; [exact (IH _ H)|congruence].
Qed.
(** It crashes on a proof without DLEQ and on one whose amount the mint has no key for. *)
Theorem C91_no_dleq_refuted v z rest : json_proof v = Some z -> z_dleq z = false -> verify ([B "proof"; v] :: rest) = Panic.
Proof. intros J D. unfold verify_nutzap. cbn [verify_fold]. change (seqb (B "proof") (B "proof")) with true. cbn [negb]. rewrite J, D. reflexivity. Qed.
Theorem C91_no_key_refuted v z rest : json_proof v = Some z -> z_dleq z = true -> z_parses z = true -> has_key (z_amount z) = false -> verify ([B "proof"; v] :: rest) = Panic.
Proof. intros J D P K. unfold verify_nutzap. cbn [verify_fold]. change (seqb (B "proof") (B "proof")) with true. cbn [negb]. rewrite J, D, P, K. reflexivity. Qed.
(** The same proof twice counts twice. *)
Theorem C91_repeated_refuted v z : json_proof v = Some z -> z_dleq z = true -> z_parses z = true -> has_key (z_amount z) = true -> dleq_ok z = true -> 0 <= z_amount z < 9223372036854775808 -> verify [[B "proof"; v]; [B "proof"; v]] = Ok (2 * z_amount z, true).
Proof.
  intros J D P K O A. unfold verify_nutzap. cbn [verify_fold]. change (seqb (B "proof") (B "proof")) with true. cbn [negb]. rewrite J, D, P, K, O. cbn [negb]. rewrite !w64_small by (rewrite ?w64_small; lia). f_equal. f_equal. lia.
Qed.
(** A nutzap with no proof at all, or with none that can be read, is fine. *)
Theorem C91_empty_refuted ts : readable ts = [] -> verify ts = Ok (0, true).
Proof.
  unfold verify_nutzap. induction ts as [|t ts IH]; intro R; [reflexivity|]. unfold readable in R. cbn [flat_map] in R. fold (readable ts) in R. apply app_eq_nil in R. destruct R as [R1 R2]. cbn [verify_fold]. destruct t as [|k [|v rest]]; try exact (IH R2). destruct (seqb k (B "proof")); cbn [negb]; [|exact (IH R2)]. destruct (json_proof v); [discriminate|exact (IH R2)].
Qed.
End Verify.
Example C91_applies : verify_nutzap (fun v => if seqb v (B "x") then Some (mkZ 8 (B "s") true v) else None) (fun a => a =? 8) (fun _ => true) (fun z => seqb (z_secret z) (B "s")) [[B "p"; B "x"]; [B "proof"; B "y"]; [B "proof"; B "x"]; [B "proof"]] = Ok (8, true).
Proof. reflexivity. Qed.

(** * C92: the wallet's two locks *)
Definition moves (a : kaction) (s : locks) : Prop := exists s', kstep a s = Some s'.
(** A token event and a send at the same time: each holds what the other wants, and nobody moves again. *)
Theorem C92_deadlock_refuted : exists s, reaches kstep unlocked s /\ k_tokens s = Some Sender /\ k_wallet s = Some Loader /\ forall a, ~ moves a s.
Proof. eexists. split; [exists [KSendStart; KSendWant; KEvent true]; vm_compute; reflexivity|]. split; [reflexivity|]. split; [reflexivity|]. intros [] [s' H]; discriminate. Qed.
Definition kinv (s : locks) : Prop :=
  (k_wallet s = Some Sender <-> k_send s = SBoth) /\ (k_tokens s = Some Sender <-> k_send s <> SOut) /\
  (k_wallet s = Some Loader <-> k_load s <> LOut) /\ (k_tokens s = Some Loader <-> k_load s = LBoth).
Lemma kinv_always s : reaches kstep unlocked s -> kinv s.
Proof.
  apply invariant.
  - unfold kinv, unlocked. cbn. repeat split; intros; congruence.
  - intros a [w t p l] s' (I1 & I2 & I3 & I4) H. cbn in *. unfold kinv. destruct a, p, l as [|[|]|]; cbn in H; try discriminate; try (destruct w as [[|]|]; try discriminate); try (destruct t as [[|]|]; try discriminate); injection H as <-; cbn in *; repeat split; intros; try congruence;
      try (exfalso; intuition congruence); try (intuition congruence).
Qed.
(** The locks do exclude: never both in one's critical section for the same lock. *)
Theorem C92_exclusion s : reaches kstep unlocked s -> ~ (k_send s = SBoth /\ k_load s <> LOut) /\ ~ (k_send s <> SOut /\ k_load s = LBoth).
Proof. intro R. apply kinv_always in R. destruct R as (I1 & I2 & I3 & I4). split; intros [A C]; [apply I1 in A; apply I3 in C|apply I2 in A; apply I4 in C]; congruence. Qed.
(** Without token events it never happens: whoever is inside can go on, the sender waiting for the lock as soon as the handler has gone on. *)
Theorem C92_other_events acts s : Forall (fun a => a <> KEvent true) acts -> exec kstep acts unlocked = Some s ->
  (k_send s = STok -> moves KSendDone s) /\ (k_send s = SBoth -> moves KSendUnlock s) /\ (k_load s <> LOut -> moves KHandled s) /\
  (k_send s = SWant -> moves KSendLock s \/ exists s', kstep KHandled s = Some s' /\ moves KSendLock s').
Proof.
  intros F R. assert (K : kinv s) by (apply kinv_always; exists acts; exact R).
  assert (NT : k_load s = LOut \/ k_load s = LWal false).
  { refine (invariant_on kstep (fun a => a <> KEvent true) (fun s => k_load s = LOut \/ k_load s = LWal false) unlocked _ _ acts s F R). { left. reflexivity. }
    intros a [w t p l] s' N I H. cbn in *. destruct a, p, l as [|[|]|]; cbn in H; try discriminate; try (destruct w as [[|]|]; try discriminate); try (destruct t as [[|]|]; try discriminate); injection H as <-; cbn in *; intuition; try congruence; destruct token; auto; congruence. }
  destruct K as (I1 & I2 & I3 & I4). destruct s as [w t p l]. cbn in *. repeat split.
  - intros ->. eexists. reflexivity.
  - intros ->. eexists. reflexivity.
  - intro N. destruct NT as [->| ->]; [congruence|]. eexists. destruct p; reflexivity.
  - intros ->. destruct w as [[|]|]; [destruct I1 as [I1 _]; specialize (I1 eq_refl); discriminate| |left; eexists; reflexivity]. right. destruct NT as [->| ->]. { destruct I3 as [I3 _]. destruct (I3 eq_refl eq_refl). } eexists. split; [reflexivity|]. eexists. reflexivity.
Qed.
Example C92_applies : exists s, exec kstep [KSendStart; KEvent false; KHandled; KSendWant; KSendLock; KSendUnlock; KSendDone; KEvent true; KAppend; KAppended; KHandled] unlocked = Some s /\ s = unlocked.
Proof. eexists. split; reflexivity. Qed.

Print Assumptions C71_remove.
Print Assumptions C71_remove_content.
Print Assumptions C71_load.
Print Assumptions C71_order.
Print Assumptions C71_race_refuted.
Print Assumptions C71_race_forever.
Print Assumptions C71_late_token_refuted.
Print Assumptions C88_round_trip.
Print Assumptions C88_last_read_stands.
Print Assumptions C88_newest_loses_refuted.
Print Assumptions C88_unreadable_refuted.
Print Assumptions C88_clear_tags_refuted.
Print Assumptions C89.
Print Assumptions C89_zero_refuted.
Print Assumptions C89_complete.
Print Assumptions C90_round_trip.
Print Assumptions C90_fresh.
Print Assumptions C90_reuse_refuted.
Print Assumptions C90_eligible.
Print Assumptions C90_exact_amount_refuted.
Print Assumptions C90_nutzap_unlocked_refuted.
Print Assumptions C91_accepts.
Print Assumptions C91_rejects.
Print Assumptions C91_no_dleq_refuted.
Print Assumptions C91_no_key_refuted.
Print Assumptions C91_repeated_refuted.
Print Assumptions C91_empty_refuted.
Print Assumptions C92_deadlock_refuted.
Print Assumptions C92_exclusion.
Print Assumptions C92_other_events.

Print Assumptions C90_mints_read.
Print Assumptions C90_not_accepted.
Print Assumptions C90_goes_outside.
Print Assumptions C90_sends.

Print Assumptions C90_crash.
