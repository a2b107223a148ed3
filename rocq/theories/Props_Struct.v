(** Values kept in tags: C74 and C75. *)
From Verif Require Import Base EventModel EventProofs TagsModel Nip19Model Nip19Proofs StructModel.
Import ListNotations.
Local Open Scope Z_scope.

Lemma over_app {A} (f : A -> str -> str -> list str -> A) a b x : over_tags f (a ++ b) x = over_tags f b (over_tags f a x).
Proof. unfold over_tags. apply fold_left_app. Qed.
Lemma over_cons {A} (f : A -> str -> str -> list str -> A) k v r ts x : over_tags f ((k :: v :: r) :: ts) x = over_tags f ts (f x k v r).
Proof. reflexivity. Qed.
Lemma over_list {A} (f : A -> str -> str -> list str -> A) k l x (g : list str -> A) : g [] = x -> (forall v r, f x k v r = g (v :: r)) -> over_tags f (list_tag k l) x = g l.
Proof. intros H0 H. destruct l as [|v r]; [symmetry; exact H0|]. cbn. apply H. Qed.
Lemma over_opt {A} (f : A -> str -> str -> list str -> A) k v x (g : str -> A) : g [] = x -> (forall v, f x k v [] = g v) -> over_tags f (opt_tag k v) x = g v.
Proof. intros H0 H. destruct v as [|c v]; [symmetry; exact H0|]. cbn. apply H. Qed.
Lemma over_if {A} (f : A -> str -> str -> list str -> A) (c : bool) l x y : (c = true -> x = y) -> (c = false -> over_tags f l x = y) -> over_tags f (if c then [] else l) x = y.
Proof. destruct c; auto. Qed.
Lemma over_case {A} (f : A -> str -> str -> list str -> A) (im : str) l x (g : str -> A) : g [] = x -> (forall c r, over_tags f (l (c :: r)) x = g (c :: r)) -> over_tags f (match im with [] => [] | c :: r => l (c :: r) end) x = g im.
Proof. intros H0 H. destruct im; [symmetry; exact H0|apply H]. Qed.
(** one tag per item, added at the end of a field *)
Lemma over_items {A C} (f : A -> str -> str -> list str -> A) (t : C -> tag) l x (g : list C -> A) :
  (forall acc c, match t c with k :: v :: rest => f (g acc) k v rest | _ => g acc end = g (acc ++ [c])) -> g [] = x -> over_tags f (map t l) x = g l.
Proof.
  intros H <-. unfold over_tags. change l with ([] ++ l) at 2. generalize (@nil C) as acc. induction l as [|c l IH]; intro acc; [rewrite app_nil_r; reflexivity|]. cbn [map fold_left]. rewrite H, IH, <- app_assoc. reflexivity.
Qed.

(** * C74: repositories *)
Theorem C74_repository r : parse_repo (repo_tags r) = r.
Proof.
  destruct r as [i n d w c rl e m]. unfold parse_repo, repo_tags. cbn [rp_id rp_name rp_description rp_web rp_clone rp_relays rp_euc rp_maintainers]. rewrite !over_app.
  change (over_tags repo_step [[B "d"; i]] _) with (mkRepo i [] [] [] [] [] [] []).
  rewrite (over_opt repo_step (B "name") n _ (fun n => mkRepo i n [] [] [] [] [] [])) by reflexivity. rewrite (over_opt repo_step (B "description") d _ (fun d => mkRepo i n d [] [] [] [] [])) by reflexivity.
  rewrite (over_case repo_step e (fun c => [[B "r"; c; B "euc"]]) _ (fun e => mkRepo i n d [] [] [] e [])) by reflexivity.
  rewrite (over_list repo_step (B "maintainers") m _ (fun m => mkRepo i n d [] [] [] e m)) by reflexivity. rewrite (over_list repo_step (B "web") w _ (fun w => mkRepo i n d w [] [] e m)) by reflexivity.
  rewrite (over_list repo_step (B "clone") c _ (fun c => mkRepo i n d w c [] e m)) by reflexivity. apply (over_list repo_step (B "relays") rl _ (fun rl => mkRepo i n d w c rl e m)); reflexivity.
Qed.
Example C74_applies : parse_repo ([[B "alt"; B "x"]; [B "web"; B "b"]; [B "name"]] ++ repo_tags (mkRepo (B "d") [] (B "x") [B "w"; []] [B "c"] [] (B "abc") [B "m"])) = mkRepo (B "d") [] (B "x") [B "b"; B "w"; []] [B "c"] [] (B "abc") [B "m"].
Proof. reflexivity. Qed.

(** The state of a repository: whatever order the maps are iterated in, the names and commits read back are the ones written. *)
Lemma get_put k v m x : get x (put k v m) = if seqb x k then Some v else get x m.
Proof.
  unfold get, put. cbn [find fst]. rewrite (seqb_sym k x). destruct (seqb_spec x k) as [->|N]; [reflexivity|]. f_equal. induction m as [|[y w] m IH]; [reflexivity|]. cbn [filter fst find]. destruct (seqb_spec y k) as [->|M]; cbn [negb].
  - rewrite IH. destruct (seqb_spec k x) as [->|]; [congruence|reflexivity].
  - cbn [find fst]. destruct (seqb y x); [reflexivity|exact IH].
Qed.
Definition one_map (m : smap) : Prop := NoDup (map fst m).
Lemma get_in m x v : one_map m -> (get x m = Some v <-> In (x, v) m).
Proof.
  unfold one_map, get. induction m as [|[y w] m IH]; cbn [map find fst In]; intro N; [split; [discriminate|intros []]|]. inversion N as [|? ? NI N']; subst. destruct (seqb_spec y x) as [->|D].
  - cbn. split; [intro H; left; congruence|]. intros [H|H]; [congruence|]. destruct NI. change x with (fst (x, v)). apply in_map. exact H.
  - rewrite IH by exact N'. split; [auto|]. intros [H|H]; [congruence|exact H].
Qed.
Lemma get_perm m m' x : one_map m -> Permutation m m' -> get x m = get x m'.
Proof.
  intros N P. assert (N' : one_map m') by (unfold one_map; eapply Permutation_NoDup; [apply Permutation_map; exact P|exact N]).
  destruct (get x m) as [v|] eqn:G; destruct (get x m') as [w|] eqn:G'; try reflexivity.
  - apply (get_in m x v N) in G. apply (get_in m' x w N') in G'. assert (G2 := Permutation_in _ P G). apply (get_in m' x v N') in G2. apply (get_in m' x w N') in G'. congruence.
  - apply (get_in m x v N) in G. assert (G2 := Permutation_in _ P G). apply (get_in m' x v N') in G2. congruence.
  - apply (get_in m' x w N') in G'. assert (G2 := Permutation_in _ (Permutation_sym P) G'). apply (get_in m x w N) in G2. congruence.
Qed.
Definition put_all (l acc : smap) : smap := fold_left (fun m x => put (fst x) (snd x) m) l acc.
Lemma get_put_all l acc x : one_map l -> get x (put_all l acc) = match get x l with Some v => Some v | None => get x acc end.
Proof.
  unfold one_map, put_all. revert acc. induction l as [|[y w] l IH]; intros acc N; cbn [fold_left map fst snd]; [reflexivity|]. inversion N as [|? ? NI N']; subst. rewrite IH by exact N'. rewrite get_put. unfold get at 3. cbn [find fst]. rewrite (seqb_sym y x). destruct (seqb_spec x y) as [->|D]; [|reflexivity].
  cbn. destruct (get y l) as [u|] eqn:G; [|reflexivity]. apply get_in in G; [|exact N']. destruct NI. change y with (fst (y, u)). apply in_map. exact G.
Qed.
Lemma heads_read bs i h tg br rest : over_tags state_step (map (fun x => [B "refs/heads/" ++ fst x; snd x]) bs ++ rest) (mkState i h tg br) = over_tags state_step rest (mkState i h tg (put_all bs br)).
Proof. revert br. induction bs as [|[b c] bs IH]; intro br; [reflexivity|]. cbn [map app]. rewrite over_cons. etransitivity; [|exact (IH (put b c br))]. reflexivity. Qed.
Lemma tags_read ts i h tg br rest : over_tags state_step (map (fun x => [B "refs/tags/" ++ fst x; snd x]) ts ++ rest) (mkState i h tg br) = over_tags state_step rest (mkState i h (put_all ts tg) br).
Proof. revert tg. induction ts as [|[b c] ts IH]; intro tg; [reflexivity|]. cbn [map app]. rewrite over_cons. etransitivity; [|exact (IH (put b c tg))]. reflexivity. Qed.
Theorem C74_state s branches tags : one_map (rs_branches s) -> one_map (rs_tags s) -> Permutation branches (rs_branches s) -> Permutation tags (rs_tags s) ->
  let s' := parse_state (state_tags (rs_id s) (rs_head s) branches tags) in
  rs_id s' = rs_id s /\ rs_head s' = rs_head s /\ (forall b, get b (rs_branches s') = get b (rs_branches s)) /\ (forall t, get t (rs_tags s') = get t (rs_tags s)).
Proof.
  intros NB NT PB PT. assert (NB' : one_map branches) by (unfold one_map; eapply Permutation_NoDup; [apply Permutation_map, Permutation_sym; exact PB|exact NB]). assert (NT' : one_map tags) by (unfold one_map; eapply Permutation_NoDup; [apply Permutation_map, Permutation_sym; exact PT|exact NT]).
  cbv zeta. unfold parse_state, state_tags. rewrite over_app. change (over_tags state_step [[B "d"; rs_id s]] _) with (mkState (rs_id s) [] [] []). rewrite heads_read, tags_read.
  assert (X : forall i h tg br, over_tags state_step (match h with [] => [] | _ :: _ => [[B "HEAD"; B "ref: refs/heads/" ++ h]] end) (mkState i [] tg br) = mkState i h tg br) by (intros ? [|] ? ?; reflexivity). rewrite X. cbn [rs_id rs_head rs_branches rs_tags].
  split; [reflexivity|]. split; [reflexivity|]. split; intro x; rewrite get_put_all by assumption; [rewrite (get_perm branches (rs_branches s)) by assumption|rewrite (get_perm tags (rs_tags s)) by assumption]; destruct (get x _); reflexivity.
Qed.
Example C74_state_applies : parse_state (state_tags (B "r") (B "main") [(B "main", B "1"); (B "dev", B "2")] [(B "dev", B "3")]) = mkState (B "r") (B "main") [(B "dev", B "3")] [(B "dev", B "2"); (B "main", B "1")].
Proof. reflexivity. Qed.

(** A patch names its repository, if the name has no colon. *)
Lemma split_ref k pk id : has_colon k = false -> has_colon pk = false -> split3 (k ++ ":"%char :: pk ++ ":"%char :: id) = Some (k, pk, id).
Proof.
  intros K P. assert (C : forall a b, has_colon a = false -> cut ":"%char (a ++ ":"%char :: b) = Some (a, b)). { induction a as [|c a IH]; intros b H; [reflexivity|]. cbn in H. apply orb_false_elim in H. destruct H as [H1 H2]. cbn [cut app]. rewrite H1. cbn in IH. unfold has_colon in IH. rewrite IH by exact H2. reflexivity. }
  unfold split3. rewrite C by exact K. rewrite C by exact P. reflexivity.
Qed.
Lemma hex_no_colon s : forallb is_lower_hex_char s = true -> has_colon s = false.
Proof. induction s as [|c s IH]; [reflexivity|]. cbn [forallb has_colon existsb]. intro H. apply andb_prop in H. destruct H as [H1 H2]. unfold has_colon in IH. rewrite IH by exact H2. unfold ceqb. destruct (Ascii.eqb_spec c ":"%char) as [->|]; [discriminate|reflexivity]. Qed.
Theorem C74_patch pre e id relay post : valid_32byte_hex (ev_pubkey e) = true -> has_colon id = false -> Forall (fun t => nth_error t 0 <> Some (B "a")) post ->
  patch_repo (pre ++ [B "a"; B "30617:" ++ ev_pubkey e ++ ":"%char :: id; relay] :: post) = mkEntity (ev_pubkey e) 30617 id (Some [relay]).
Proof.
  intros V C F. unfold patch_repo. rewrite over_app, over_cons. unfold patch_step at 2. change (seqb (B "a") (B "a")) with true. cbn iota. change (B "30617:" ++ ev_pubkey e ++ ":"%char :: id) with (B "30617" ++ ":"%char :: ev_pubkey e ++ ":"%char :: id).
  rewrite split_ref; [|reflexivity|]. 2: { apply hex_no_colon. unfold valid_32byte_hex in V. apply andb_prop in V. destruct V as [V _]. apply andb_prop in V. apply V. }
  rewrite C, V. cbn iota. match goal with |- over_tags _ _ ?x = ?y => change y with x; generalize x end. induction post as [|t post IH]; intro p; [reflexivity|]. inversion F as [|? ? H F']; subst. destruct t as [|k [|v rest]]; try exact (IH F' p). rewrite over_cons. unfold patch_step at 2. destruct (seqb_spec k (B "a")) as [->|]; [destruct H; reflexivity|]. exact (IH F' p).
Qed.
Theorem C74_patch_colon_refuted e id relay : valid_32byte_hex (ev_pubkey e) = true -> has_colon id = true -> patch_repo [[B "a"; B "30617:" ++ ev_pubkey e ++ ":"%char :: id; relay]] = mkEntity [] 0 [] None.
Proof.
  intros V C. unfold patch_repo, over_tags. cbn [fold_left]. unfold patch_step. change (seqb (B "a") (B "a")) with true. cbn iota. change (B "30617:" ++ ev_pubkey e ++ ":"%char :: id) with (B "30617" ++ ":"%char :: ev_pubkey e ++ ":"%char :: id).
  rewrite split_ref; [rewrite C; reflexivity|reflexivity|]. apply hex_no_colon. unfold valid_32byte_hex in V. apply andb_prop in V. destruct V as [V _]. apply andb_prop in V. apply V.
Qed.
(** A reference to something of another kind counts as the repository. *)
Theorem C74_patch_kind_refuted : patch_repo [[B "a"; B "30023:7e7e9c42a91bfef19fa929e5fda1b72e0ebc1a4c1141673e2794234d86addf4e:article"]] = mkEntity (B "7e7e9c42a91bfef19fa929e5fda1b72e0ebc1a4c1141673e2794234d86addf4e") 30617 (B "article") None.
Proof. vm_compute. reflexivity. Qed.

(** * C75: file metadata *)
(** Exactly what survives: all but the type, the image and the content, and the thumbnail becomes the image. *)
Theorem C75_file_partial f : parse_file (file_tags f) = mkFile (fm_magnet f) (fm_dim f) (fm_size f) (fm_summary f) (fm_thumb f) (fm_url f) [] (fm_x f) (fm_ox f) (fm_hash f) (fm_blurhash f) [] [].
Proof.
  destruct f as [mg d s su im u m x o h b t c]. unfold parse_file, file_tags. cbn [fm_magnet fm_dim fm_size fm_summary fm_image fm_url fm_m fm_x fm_ox fm_hash fm_blurhash fm_thumb]. rewrite !over_app.
  rewrite (over_opt file_step (B "url") u _ (fun u => mkFile [] [] [] [] [] u [] [] [] [] [] [] [])) by reflexivity.
  rewrite (over_opt file_step (B "m") m _ (fun _ => mkFile [] [] [] [] [] u [] [] [] [] [] [] [])) by reflexivity.
  rewrite (over_opt file_step (B "x") x _ (fun x => mkFile [] [] [] [] [] u [] x [] [] [] [] [])) by reflexivity.
  rewrite (over_opt file_step (B "ox") o _ (fun o => mkFile [] [] [] [] [] u [] x o [] [] [] [])) by reflexivity.
  rewrite (over_opt file_step (B "size") s _ (fun s => mkFile [] [] s [] [] u [] x o [] [] [] [])) by reflexivity.
  rewrite (over_opt file_step (B "dim") d _ (fun d => mkFile [] d s [] [] u [] x o [] [] [] [])) by reflexivity.
  rewrite (over_opt file_step (B "magnet") mg _ (fun mg => mkFile mg d s [] [] u [] x o [] [] [] [])) by reflexivity.
  rewrite (over_opt file_step (B "i") h _ (fun h => mkFile mg d s [] [] u [] x o h [] [] [])) by reflexivity.
  rewrite (over_opt file_step (B "blurhash") b _ (fun b => mkFile mg d s [] [] u [] x o h b [] [])) by reflexivity.
  rewrite (over_opt file_step (B "thumb") t _ (fun t => mkFile mg d s [] t u [] x o h b [] [])) by reflexivity.
  rewrite (over_opt file_step (B "image") im _ (fun _ => mkFile mg d s [] t u [] x o h b [] [])) by reflexivity.
  apply (over_opt file_step (B "summary") su _ (fun su => mkFile mg d s su t u [] x o h b [] [])); reflexivity.
Qed.
Corollary C75_file_refuted : exists f, fm_content f = [] /\ parse_file (file_tags f) <> f /\ is_image f = true /\ is_image (parse_file (file_tags f)) = false /\ display_image (parse_file (file_tags f)) = [].
Proof. exists (mkFile [] [] [] [] [] (B "https://x/y.png") (B "image/png") [] [] [] [] [] []). split; [reflexivity|]. split; [discriminate|]. repeat split. Qed.
Corollary C75_file_image_refuted : exists f, fm_m f = [] /\ parse_file (file_tags f) <> f /\ fm_image f = B "big" /\ display_image (parse_file (file_tags f)) = B "small".
Proof. exists (mkFile [] [] [] [] (B "big") [] [] [] [] [] [] (B "small") []). split; [reflexivity|]. split; [discriminate|]. split; reflexivity. Qed.
(** no parsed file is ever an image or a video *)
Theorem C75_no_type_refuted ts : fm_m (parse_file ts) = [].
Proof.
  unfold parse_file. assert (G : forall f, fm_m f = [] -> fm_m (over_tags file_step ts f) = []); [|apply G; reflexivity]. induction ts as [|t ts IH]; intros f H; [exact H|]. unfold over_tags. cbn [fold_left]. apply IH. destruct t as [|k [|v r]]; try exact H. destruct f. cbn [file_step]. cbn in H. subst.
  repeat match goal with |- context [seqb ?a ?b] => destruct (seqb a b); [reflexivity|] end. reflexivity.
Qed.

(** * C75: live events *)
Lemma parts_read l : Forall (fun p => valid_32byte_hex (pt_pubkey p) = true) l -> flat_map (fun p => part_of (pt_pubkey p) [pt_relay p; pt_role p]) l = l.
Proof. induction 1 as [|p l V _ IH]; [reflexivity|]. cbn [flat_map]. rewrite IH. unfold part_of. rewrite V. destruct p; reflexivity. Qed.
Lemma over_parts {A} (f : A -> str -> str -> list str -> A) l x (g : list participant -> A) :
  (forall acc p, f (g acc) (B "p") (pt_pubkey p) [pt_relay p; pt_role p] = g (acc ++ part_of (pt_pubkey p) [pt_relay p; pt_role p])) -> g [] = x ->
  over_tags f (map part_tag l) x = g (flat_map (fun p => part_of (pt_pubkey p) [pt_relay p; pt_role p]) l).
Proof.
  intros H <-. unfold over_tags. change (flat_map _ l) with ([] ++ flat_map (fun p => part_of (pt_pubkey p) [pt_relay p; pt_role p]) l). generalize (@nil participant) as acc. induction l as [|c l IH]; intro acc; [rewrite app_nil_r; reflexivity|]. cbn [map fold_left part_tag flat_map]. rewrite H, IH, <- app_assoc. reflexivity.
Qed.
Lemma dec_Z_neg_shape z : z < 0 -> exists r, dec_Z z = "-"%char :: r /\ parse_digits r = Some (Z.to_N (- z)).
Proof. intro H. destruct z as [|p|p]; try lia. exists (dec_N (Npos p)). split; [reflexivity|]. rewrite parse_digits_dec_N. reflexivity. Qed.
Lemma dec_Z_pos_shape z : 0 <= z -> exists c r, dec_Z z = c :: r /\ ceqb c "-"%char = false /\ ceqb c "+"%char = false /\ parse_digits (c :: r) = Some (Z.to_N z).
Proof.
  intro H. assert (E : dec_Z z = dec_N (Z.to_N z)) by (destruct z; [reflexivity|reflexivity|lia]). pose proof (parse_digits_dec_N (Z.to_N z)) as P. rewrite <- E in P. destruct (dec_Z z) as [|c r]; [discriminate|]. exists c, r. split; [reflexivity|]. assert (Q := P). unfold parse_digits in P. destruct (forallb is_digit (c :: r)) eqn:D; [|discriminate]. cbn [forallb] in D. apply andb_prop in D. destruct D as [D _].
  unfold ceqb. destruct (Ascii.eqb_spec c "-"%char) as [->|]; [discriminate|]. destruct (Ascii.eqb_spec c "+"%char) as [->|]; [discriminate|]. auto.
Qed.
Lemma atoi_dec z : min_int64 <= z <= max_int64 -> atoi_value (dec_Z z) = z.
Proof.
  intro H. unfold atoi_value. destruct (Z.ltb_spec z 0) as [N|N].
  - destruct (dec_Z_neg_shape z N) as (r & -> & P). change (ceqb "-"%char "-"%char) with true. cbn [orb]. rewrite P. rewrite Z2N.id by lia. rewrite Z.opp_involutive. destruct (Z.ltb_spec z min_int64); [lia|]. destruct (Z.ltb_spec max_int64 z); [lia|reflexivity].
  - destruct (dec_Z_pos_shape z N) as (c & r & -> & M & P & D). rewrite M, P. cbn [orb]. rewrite D. rewrite Z2N.id by lia. destruct (Z.ltb_spec z min_int64); [lia|]. destruct (Z.ltb_spec max_int64 z); [lia|reflexivity].
Qed.
(** Exactly what survives. *)
Theorem C75_live_partial e : min_int64 <= lv_current e <= max_int64 -> min_int64 <= lv_total e <= max_int64 -> Forall (fun p => valid_32byte_hex (pt_pubkey p) = true) (lv_parts e) ->
  parse_live (live_tags e) = mkLive (lv_id e) (lv_title e) [] (match lv_image e with [] => [] | _ => lv_title e end) [] (lv_current e) (lv_total e) (lv_streaming e) (lv_recording e) zero_time zero_time (lv_parts e) (lv_hashtags e) [].
Proof.
  destruct e as [i t s im st c to sr rc a b ps h rs]. cbn [lv_id lv_title lv_image lv_current lv_total lv_streaming lv_recording lv_parts lv_hashtags]. intros HC HT HP. unfold parse_live, live_tags. cbn [lv_id lv_title lv_image lv_current lv_total lv_streaming lv_recording lv_starts lv_ends lv_parts lv_hashtags lv_relays]. rewrite !over_app.
  change (over_tags live_step [[B "d"; i]; [B "title"; t]] _) with (mkLive i t [] [] [] 0 0 [] [] zero_time zero_time [] [] []).
  set (im' := match im with [] => [] | _ => t end). rewrite (over_case live_step im (fun _ => [[B "image"; t]]) _ (fun im => mkLive i t [] (match im with [] => [] | _ => t end) [] 0 0 [] [] zero_time zero_time [] [] [])) by reflexivity. cbn beta. fold im'.
  change (over_tags live_step [[B "start"; dec_Z a]] ?x) with x. rewrite (over_if live_step (b =? zero_time) _ _ (mkLive i t [] im' [] 0 0 [] [] zero_time zero_time [] [] [])) by reflexivity.
  rewrite (over_items live_step (fun u => [B "streaming"; u]) sr _ (fun sr => mkLive i t [] im' [] 0 0 sr [] zero_time zero_time [] [] [])) by reflexivity.
  rewrite (over_items live_step (fun u => [B "recording"; u]) rc _ (fun rc => mkLive i t [] im' [] 0 0 sr rc zero_time zero_time [] [] [])) by reflexivity.
  rewrite (over_parts live_step ps _ (fun ps => mkLive i t [] im' [] 0 0 sr rc zero_time zero_time ps [] [])) by reflexivity. rewrite (parts_read ps HP).
  rewrite (over_items live_step (fun u => [B "t"; u]) h _ (fun h => mkLive i t [] im' [] 0 0 sr rc zero_time zero_time ps h [])) by reflexivity.
  rewrite (over_if live_step (c =? 0) _ _ (mkLive i t [] im' [] c 0 sr rc zero_time zero_time ps h [])). 2: { destruct (Z.eqb_spec c 0) as [->|]; [reflexivity|discriminate]. } 2: { intros _. rewrite over_cons. etransitivity; [|exact (f_equal (fun c => mkLive i t [] im' [] c 0 sr rc zero_time zero_time ps h []) (atoi_dec c HC))]. reflexivity. }
  rewrite (over_if live_step (to =? 0) _ _ (mkLive i t [] im' [] c to sr rc zero_time zero_time ps h [])). 2: { destruct (Z.eqb_spec to 0) as [->|]; [reflexivity|discriminate]. } 2: { intros _. rewrite over_cons. etransitivity; [|exact (f_equal (fun to => mkLive i t [] im' [] c to sr rc zero_time zero_time ps h []) (atoi_dec to HT))]. reflexivity. }
  apply (over_items live_step (fun u => [B "relay"; u]) rs _ (fun _ => mkLive i t [] im' [] c to sr rc zero_time zero_time ps h [])); reflexivity.
Qed.
(** What is read from any tags: single values from the last tag of that name, lists from all of them in order. *)
Definition vals (k : str) (ts : list tag) : list str := flat_map (fun t => match t with x :: v :: _ => if seqb x k then [v] else [] | _ => [] end) ts.
Lemma last_next {A} (v : A) l d : last (v :: l) d = last l v.
Proof. revert v d. induction l as [|x l IH]; intros v d; [reflexivity|]. change (last (v :: x :: l) d) with (last (x :: l) d). rewrite (IH x d), (IH x v). reflexivity. Qed.
Theorem C75_live_reads ts : let e := parse_live ts in
  lv_id e = last (vals (B "d") ts) [] /\ lv_title e = last (vals (B "title") ts) [] /\ lv_summary e = last (vals (B "summary") ts) [] /\ lv_image e = last (vals (B "image") ts) [] /\ lv_status e = last (vals (B "status") ts) [] /\
  lv_streaming e = vals (B "streaming") ts /\ lv_recording e = vals (B "recording") ts /\ lv_hashtags e = vals (B "t") ts /\ lv_relays e = vals (B "relays") ts.
Proof.
  assert (G : forall e, let e' := over_tags live_step ts e in
    lv_id e' = last (vals (B "d") ts) (lv_id e) /\ lv_title e' = last (vals (B "title") ts) (lv_title e) /\ lv_summary e' = last (vals (B "summary") ts) (lv_summary e) /\ lv_image e' = last (vals (B "image") ts) (lv_image e) /\ lv_status e' = last (vals (B "status") ts) (lv_status e) /\
    lv_streaming e' = lv_streaming e ++ vals (B "streaming") ts /\ lv_recording e' = lv_recording e ++ vals (B "recording") ts /\ lv_hashtags e' = lv_hashtags e ++ vals (B "t") ts /\ lv_relays e' = lv_relays e ++ vals (B "relays") ts); [|exact (G _)].
  induction ts as [|t ts IH]; intros e; cbv zeta. { rewrite !app_nil_r. repeat split. }
  destruct t as [|k [|v r]]; [exact (IH e)|exact (IH e)|]. rewrite over_cons. specialize (IH (live_step e k v r)). cbv zeta in IH. unfold vals in *. cbn [flat_map].
  destruct IH as (I1 & I2 & I3 & I4 & I5 & I6 & I7 & I8 & I9). rewrite I1, I2, I3, I4, I5, I6, I7, I8, I9. clear I1 I2 I3 I4 I5 I6 I7 I8 I9.
  destruct e as [i t s im st c to sr rc a b ps h rs]. unfold live_step.
  repeat match goal with |- context[seqb k ?w] => destruct (seqb_spec k w) as [->|]; cbn [orb] end; try (destruct (parse_int v)); cbn [lv_id lv_title lv_summary lv_image lv_status lv_streaming lv_recording lv_hashtags lv_relays]; try congruence;
  change (seqb (B "start") (B "end")) with false; cbn [app]; rewrite ?last_next, <- ?app_assoc; cbn [app]; repeat split.
Qed.
(** Whatever the tags say, the counts read are ints; the nearest one when the text is a number out of range. *)
Theorem C75_live_counts ts : min_int64 <= lv_current (parse_live ts) <= max_int64 /\ min_int64 <= lv_total (parse_live ts) <= max_int64.
Proof.
  assert (R : forall s, min_int64 <= atoi_value s <= max_int64). { intro s. assert (MM : min_int64 < 0 < max_int64) by (split; reflexivity). unfold atoi_value. destruct s as [|c r]; [lia|]. destruct (parse_digits _) as [n|]; [|lia]. cbv zeta. match goal with |- context[?z <? min_int64] => destruct (Z.ltb_spec z min_int64) as [A|A]; [lia|]; destruct (Z.ltb_spec max_int64 z); lia end. }
  unfold parse_live. match goal with |- context[over_tags _ _ ?x] => assert (I : min_int64 <= lv_current x <= max_int64 /\ min_int64 <= lv_total x <= max_int64) by (vm_compute; repeat split; discriminate); generalize dependent x end.
  induction ts as [|t ts IH]; intros x I; [exact I|]. destruct t as [|k [|v r]]; [apply IH; exact I|apply IH; exact I|]. rewrite over_cons. apply IH. destruct x as [i0 t0 s0 im0 st0 c0 to0 sr0 rc0 a0 b0 ps0 h0 rs0]. unfold live_step. cbn [lv_current lv_total] in *.
  repeat match goal with |- context[if ?c then _ else _] => destruct c; cbn [lv_current lv_total]; [first [exact I|split; first [apply R|apply I]|idtac]|] end; try exact I.
  all: destruct (parse_int v); cbn [lv_current lv_total]; exact I.
Qed.
Theorem C75_live_clamped sign n : sign = "+"%char \/ sign = "-"%char -> max_int64 < Z.of_N n -> - Z.of_N n < min_int64 ->
  lv_current (parse_live [[B "current_participants"; sign :: dec_N n]]) = if ceqb sign "-"%char then min_int64 else max_int64.
Proof.
  intros S1 BG SM. unfold parse_live. rewrite over_cons. cbn [over_tags fold_left lv_current]. unfold live_step. change (atoi_value (sign :: dec_N n) = if ceqb sign "-"%char then min_int64 else max_int64). unfold atoi_value.
  destruct S1 as [->| ->]; cbv zeta.
  - change (ceqb "+" "-") with false. cbn [orb]. change (ceqb "+" "+") with true. cbv iota. rewrite parse_digits_dec_N. cbv iota. destruct (Z.ltb_spec (Z.of_N n) min_int64) as [Q|Q]; [assert (min_int64 < max_int64) by reflexivity; lia|]. destruct (Z.ltb_spec max_int64 (Z.of_N n)); [reflexivity|lia].
  - change (ceqb "-" "-") with true. cbn [orb]. cbv iota. rewrite parse_digits_dec_N. cbv iota. destruct (Z.ltb_spec (- Z.of_N n) min_int64); [reflexivity|lia].
Qed.
(** No event ever gives a start or an end: both are 1 January of year 1, 1969 years with 477 leap days before 1970. *)
Theorem C75_live_times_refuted ts : lv_starts (parse_live ts) = - (86400 * (365 * 1969 + 1969 / 4 - 1969 / 100 + 1969 / 400)) /\ lv_ends (parse_live ts) = - (86400 * (365 * 1969 + 1969 / 4 - 1969 / 100 + 1969 / 400)).
Proof.
  change (- (86400 * (365 * 1969 + 1969 / 4 - 1969 / 100 + 1969 / 400))) with zero_time. unfold parse_live. assert (G : forall e, lv_starts e = zero_time /\ lv_ends e = zero_time -> lv_starts (over_tags live_step ts e) = zero_time /\ lv_ends (over_tags live_step ts e) = zero_time); [|apply G; split; reflexivity]. induction ts as [|t ts IH]; intros e H; [exact H|]. unfold over_tags. cbn [fold_left]. apply IH. destruct t as [|k [|v r]]; try exact H. destruct e. cbn [live_step]. cbn in H.
  destruct (seqb k (B "d")); [exact H|]. destruct (seqb k (B "title")); [exact H|]. destruct (seqb k (B "summary")); [exact H|]. destruct (seqb k (B "image")); [exact H|]. destruct (seqb k (B "status")); [exact H|].
  destruct (seqb_spec k (B "starts")) as [->|]; cbn [orb]. { destruct (parse_int v); exact H. } destruct (seqb_spec k (B "ends")) as [->|]. { destruct (parse_int v); exact H. }
  repeat match goal with |- context [seqb ?a ?b] => destruct (seqb a b); [exact H|] end. exact H.
Qed.
(** The image written is the title, and summary, status and relays are lost. *)
Corollary C75_live_refuted : exists e, lv_starts e = zero_time /\ lv_ends e = zero_time /\ parse_live (live_tags e) <> e /\ lv_image e = B "pic" /\ lv_image (parse_live (live_tags e)) = B "title" /\ lv_status (parse_live (live_tags e)) = [] /\ lv_relays (parse_live (live_tags e)) = [] /\ lv_relays e <> [].
Proof. exists (mkLive (B "d") (B "title") [] (B "pic") (B "live") 0 0 [] [] zero_time zero_time [] [] [B "wss://r"]). repeat split; discriminate. Qed.
(** Host: the first participant with the role. *)
Theorem C75_host e p : get_host e = Some p <-> exists a b, lv_parts e = a ++ p :: b /\ pt_role p = B "host" /\ Forall (fun q => pt_role q <> B "host") a.
Proof.
  unfold get_host. induction (lv_parts e) as [|q l IH]; cbn [find]. { split; [discriminate|]. intros (a & b & H & _). destruct a; discriminate. }
  destruct (seqb_spec (pt_role q) (B "host")) as [E|E].
  - split. { intro H. assert (q = p) as -> by congruence. exists [], l. auto. } intros ([|x a] & b & H & R & F); cbn in H; [congruence|]. injection H as -> _. inversion F; subst. congruence.
  - rewrite IH. split; intros (a & b & H & R & F). { exists (q :: a), b. rewrite H. auto. } destruct a as [|x a]; cbn in H; injection H as -> H; [congruence|]. inversion F; subst. exists a, b. auto.
Qed.

(** * C75: calendar events *)
Section Cal.
Variable format_date : Z -> str.
Variable parse_date : str -> option Z.
(** Exactly what survives; of a date-based event, the day. *)
Theorem C75_calendar_partial e (day : Z -> Z) : Forall (fun p => valid_32byte_hex (pt_pubkey p) = true) (ca_parts e) ->
  (ca_kind e = 31923 -> min_int64 <= ca_start e <= max_int64 /\ min_int64 <= ca_end e <= max_int64) ->
  (ca_kind e = 31922 -> parse_date (format_date (ca_start e)) = Some (day (ca_start e)) /\ (ca_end e <> zero_time -> parse_date (format_date (ca_end e)) = Some (day (ca_end e)))) ->
  parse_cal parse_date (ca_kind e) (cal_tags format_date e) =
  mkCal (ca_kind e) (ca_id e) (ca_title e) (match ca_image e with [] => [] | _ => ca_title e end)
    (if ca_kind e =? 31923 then ca_start e else if ca_kind e =? 31922 then day (ca_start e) else zero_time)
    (if ca_kind e =? 31923 then ca_end e else if ca_kind e =? 31922 then if ca_end e =? zero_time then zero_time else day (ca_end e) else zero_time)
    (ca_locations e) (ca_geohashes e) (ca_parts e) (ca_refs e) (ca_hashtags e) [] [].
Proof.
  destruct e as [kd i t im a b lo ge ps rf h s1 s2]. cbn [ca_kind ca_id ca_title ca_image ca_start ca_end ca_locations ca_geohashes ca_parts ca_refs ca_hashtags]. intros HP HT HD. unfold parse_cal, cal_tags. cbn [ca_kind ca_id ca_title ca_image ca_start ca_end ca_locations ca_geohashes ca_parts ca_refs ca_hashtags]. rewrite !over_app.
  change (over_tags (cal_step parse_date) [[B "d"; i]; [B "title"; t]] _) with (mkCal kd i t [] zero_time zero_time [] [] [] [] [] [] []).
  set (im' := match im with [] => [] | _ => t end). rewrite (over_case (cal_step parse_date) im (fun _ => [[B "image"; t]]) _ (fun im => mkCal kd i t (match im with [] => [] | _ => t end) zero_time zero_time [] [] [] [] [] [] [])) by reflexivity. cbn beta. fold im'.
  set (a' := if kd =? 31923 then a else _). set (b' := if kd =? 31923 then b else _).
  assert (X : forall im', over_tags (cal_step parse_date) (if kd =? 31923 then [B "start"; dec_Z a] :: (if b =? zero_time then [] else [[B "end"; dec_Z b]])
    else if kd =? 31922 then [B "start"; format_date a] :: (if b =? zero_time then [] else [[B "end"; format_date b]]) else []) (mkCal kd i t im' zero_time zero_time [] [] [] [] [] [] []) = mkCal kd i t im' a' b' [] [] [] [] [] [] []).
  { intro X. subst a' b'. destruct (Z.eqb_spec kd 31923) as [->|N1].
    - destruct (HT eq_refl) as [H1 H2]. rewrite over_cons. unfold cal_step at 2. cbn [seqb B list_ascii_of_string Ascii.eqb Bool.eqb andb orb Z.eqb Pos.eqb]. rewrite parse_int_dec_Z by exact H1. destruct (Z.eqb_spec b zero_time) as [->|]; [reflexivity|]. rewrite over_cons. unfold cal_step at 2. cbn [seqb B list_ascii_of_string Ascii.eqb Bool.eqb andb orb Z.eqb Pos.eqb]. rewrite parse_int_dec_Z by exact H2. reflexivity.
    - destruct (Z.eqb_spec kd 31922) as [->|N2]; [|reflexivity]. destruct (HD eq_refl) as [H1 H2]. rewrite over_cons. unfold cal_step at 2. cbn [seqb B list_ascii_of_string Ascii.eqb Bool.eqb andb orb Z.eqb Pos.eqb]. rewrite H1. destruct (Z.eqb_spec b zero_time) as [->|NZ]; [reflexivity|]. rewrite over_cons. unfold cal_step at 2. cbn [seqb B list_ascii_of_string Ascii.eqb Bool.eqb andb orb Z.eqb Pos.eqb]. rewrite (H2 NZ). reflexivity. }
  rewrite X.
  rewrite (over_items (cal_step parse_date) (fun u => [B "location"; u]) lo _ (fun lo => mkCal kd i t im' a' b' lo [] [] [] [] [] [])) by reflexivity.
  rewrite (over_items (cal_step parse_date) (fun u => [B "g"; u]) ge _ (fun ge => mkCal kd i t im' a' b' lo ge [] [] [] [] [])) by reflexivity.
  rewrite (over_parts (cal_step parse_date) ps _ (fun ps => mkCal kd i t im' a' b' lo ge ps [] [] [] [])) by reflexivity. rewrite (parts_read ps HP).
  rewrite (over_items (cal_step parse_date) (fun u => [B "r"; u]) rf _ (fun rf => mkCal kd i t im' a' b' lo ge ps rf [] [] [])) by reflexivity.
  apply (over_items (cal_step parse_date) (fun u => [B "t"; u]) h _ (fun h => mkCal kd i t im' a' b' lo ge ps rf h [] [])); reflexivity.
Qed.
Corollary C75_calendar_refuted : exists e, ca_kind e = 31923 /\ parse_cal parse_date 31923 (cal_tags format_date e) <> e /\ ca_image e = B "pic" /\ ca_image (parse_cal parse_date 31923 (cal_tags format_date e)) = B "title" /\ ca_start_tz e <> [] /\ ca_start_tz (parse_cal parse_date 31923 (cal_tags format_date e)) = [].
Proof. exists (mkCal 31923 (B "d") (B "title") (B "pic") 0 zero_time [] [] [] [] [] (B "Europe/Rome") []). split; [reflexivity|]. split; [discriminate|]. split; [reflexivity|]. split; [reflexivity|]. split; [discriminate|reflexivity]. Qed.
End Cal.
Example C75_live_applies : let e := mkLive (B "d") (B "t") [] [] [] 5 (-7) [B "s1"; B "s2"] [B "r"] zero_time zero_time [mkPart (B "7e7e9c42a91bfef19fa929e5fda1b72e0ebc1a4c1141673e2794234d86addf4e") [] (B "host")] [B "x"; B "x"] [] in parse_live (live_tags e) = e /\ get_host e <> None.
Proof. split; [vm_compute; reflexivity|discriminate]. Qed.
Example C75_calendar_applies : let e := mkCal 31923 (B "d") (B "t") [] 1700000000 1700003600 [B "here"; B "there"] [B "u0"] [] [B "r"] [B "x"] [] [] in parse_cal (fun _ => None) 31923 (cal_tags (fun _ => []) e) = e.
Proof. vm_compute. reflexivity. Qed.

Print Assumptions C74_repository.
Print Assumptions C74_state.
Print Assumptions C74_patch.
Print Assumptions C74_patch_colon_refuted.
Print Assumptions C74_patch_kind_refuted.
Print Assumptions C75_file_partial.
Print Assumptions C75_file_refuted.
Print Assumptions C75_file_image_refuted.
Print Assumptions C75_no_type_refuted.
Print Assumptions C75_live_partial.
Print Assumptions C75_live_times_refuted.
Print Assumptions C75_live_refuted.
Print Assumptions C75_host.
Print Assumptions C75_calendar_partial.
Print Assumptions C75_calendar_refuted.

Print Assumptions C75_live_counts.
Print Assumptions C75_live_clamped.

Print Assumptions C75_live_reads.
