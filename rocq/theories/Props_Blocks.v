(** Content parsed into blocks: C73. *)
From Verif Require Import Base JsonSpec EventModel Bech32Model Bech32Proofs Nip19Model Nip19Proofs JLexModel JLexProofs BlocksModel.
Import ListNotations.
Local Open Scope nat_scope.

(** Spec: the blocks are the content cut in pieces, none empty, each with its own offset. *)
Fixpoint tiles (s : str) (bs : list block) (at_ : nat) : Prop :=
  match bs with
  | [] => s = []
  | b :: r => b_start b = at_ /\ b_text b <> [] /\ exists s', s = b_text b ++ s' /\ tiles s' r (at_ + length (b_text b))
  end.
(** Spec: what each block says about itself. *)
Definition schemes : list str := [B "http"; B "https"; B "ws"; B "wss"].
Definition truthful (url_host : str -> option str) (b : block) : Prop :=
  match b_pointer b with
  | None => True
  | Some (BPtr p) => exists code, b_text b = B "nostr:" ++ code /\ to_pointer code = Ok p
  | Some (BUrl t) => t = b_text b /\ (exists h, url_host t = Some h /\ In "."%char h) /\ exists w rest, In w schemes /\ t = w ++ B ":" ++ rest
  end.
Fixpoint no_two_texts (bs : list block) : Prop :=
  match bs with
  | a :: (b :: _) as r => ~ (b_pointer a = None /\ b_pointer b = None) /\ no_two_texts r
  | _ => True
  end.

(** ** Slices *)
Lemma skipn_add {A} a b (s : list A) : skipn (a + b) s = skipn b (skipn a s).
Proof. revert s. induction a as [|a IH]; intro s; [reflexivity|]. destruct s; cbn; [destruct b; reflexivity|apply IH]. Qed.
Lemma slice_ok s i j : i <= j -> j <= length s -> slice s i j = Ok (firstn (j - i) (skipn i s)).
Proof. intros H1 H2. unfold slice. destruct (Nat.leb_spec i j); [|lia]. destruct (Nat.leb_spec j (length s)); [reflexivity|lia]. Qed.
Lemma slice_inv s i j t : slice s i j = Ok t -> i <= j /\ j <= length s /\ t = firstn (j - i) (skipn i s).
Proof. unfold slice. destruct (Nat.leb_spec i j); [|discriminate]. destruct (Nat.leb_spec j (length s)); [|discriminate]. cbn. intro H1. repeat split; try assumption. congruence. Qed.
Lemma slice_rest s i j t : slice s i j = Ok t -> skipn i s = t ++ skipn j s /\ length t = j - i.
Proof.
  intro H. apply slice_inv in H. destruct H as (H1 & H2 & ->). split.
  - rewrite <- (firstn_skipn (j - i) (skipn i s)) at 1. f_equal. rewrite <- skipn_add. f_equal. lia.
  - rewrite firstn_length, skipn_length. lia.
Qed.
Lemma slice_join s i j k a b t : slice s i j = Ok a -> slice s j k = Ok b -> slice s i k = Ok t -> t = a ++ b.
Proof.
  intros H1 H2 H3. pose proof (slice_rest _ _ _ _ H1) as [R1 L1]. pose proof (slice_rest _ _ _ _ H2) as [R2 L2]. pose proof (slice_rest _ _ _ _ H3) as [R3 L3]. apply slice_inv in H1, H2, H3. rewrite R1, R2, app_assoc in R3. symmetry in R3. apply app_split_len in R3; [apply R3|]. rewrite app_length. lia.
Qed.
Lemma slice_panic s i j : slice s i j = Panic -> ~ (i <= j <= length s).
Proof. unfold slice. destruct (Nat.leb_spec i j); [|lia]. destruct (Nat.leb_spec j (length s)); [discriminate|lia]. Qed.
Lemma slice_not_err s i j : slice s i j <> Err.
Proof. unfold slice. destruct (_ && _); discriminate. Qed.
Lemma colon_at s n : index_colon s = Some n -> nth_error s n = Some ":"%char /\ ~ In ":"%char (firstn n s).
Proof.
  revert n. induction s as [|c r IH]; intros n H; [discriminate|]. cbn [index_colon] in H. destruct (ceqb c ":"%char) eqn:E.
  - assert (n = 0) as -> by congruence. apply Ascii.eqb_eq in E. subst. split; [reflexivity|intros []].
  - destruct (index_colon r) as [m|]; [|discriminate]. assert (n = S m) as -> by congruence. destruct (IH m eq_refl) as [I1 I2]. split; [exact I1|]. intros [I|I]; [subst; discriminate|exact (I2 I)].
Qed.
Lemma no_colon s : index_colon s = None -> ~ In ":"%char s.
Proof. induction s as [|c r IH]; intros H I; [destruct I|]. cbn [index_colon] in H. destruct (ceqb c ":"%char) eqn:E; [discriminate|]. destruct (index_colon r); [discriminate|]. destruct I as [->|I]; [discriminate|exact (IH eq_refl I)]. Qed.
Lemma nth_error_skip {A} (s : list A) i n : nth_error (skipn i s) n = nth_error s (i + n).
Proof. revert s. induction i as [|i IH]; intro s; [reflexivity|]. destruct s; cbn; [destruct n; reflexivity|apply IH]. Qed.
Lemma slice_one s u c : nth_error s u = Some c -> slice s u (u + 1) = Ok [c].
Proof.
  intro H. assert (u < length s) by (apply nth_error_Some; congruence). rewrite slice_ok by lia. replace (u + 1 - u) with 1 by lia. rewrite <- (Nat.add_0_r u) in H. rewrite <- nth_error_skip in H. destruct (skipn u s); cbn in *; congruence.
Qed.
Lemma ends_slice s u w : ends_at s u w = true -> u <= length s -> length w <= u /\ slice s (u - length w) u = Ok w.
Proof.
  unfold ends_at. intros H L. apply andb_prop in H. destruct H as [H1 H2]. apply Nat.leb_le in H1. apply seqb_eq in H2. split; [exact H1|]. rewrite slice_ok by lia. replace (u - (u - length w)) with (length w) by lia. rewrite H2. reflexivity.
Qed.
Lemma ends_char s u w i : ends_at s u w = true -> i < length w -> nth (u - length w + i) s " "%char = nth i w " "%char.
Proof.
  unfold ends_at. intros H I. apply andb_prop in H. destruct H as [_ H]. apply seqb_eq in H. remember (u - length w) as k. rewrite <- H. clear - I. revert s i I. generalize (length w). intros n s i I.
  assert (E : nth (k + i) s " "%char = nth i (skipn k s) " "%char). { revert s. induction k as [|k IH]; intro s; [reflexivity|]. destruct s; cbn; [destruct i; reflexivity|apply IH]. } rewrite E. generalize (skipn k s). clear - I. intro l. revert n l I. induction i; intros n l I; destruct n; try lia; destruct l; cbn; try reflexivity. apply IHi. lia.
Qed.
Lemma code_end_le s : code_end s <= length s.
Proof. induction s as [|c r IH]; cbn; [lia|]. destruct (is_word c); lia. Qed.
Lemma code_end_stop s : match skipn (code_end s) s with [] => True | c :: _ => is_word c = false end.
Proof. induction s as [|c r IH]; cbn; [exact I|]. destruct (is_word c) eqn:E; [exact IH|exact E]. Qed.
Lemma rune_len_bounds s : s <> [] -> 1 <= rune_len s <= length s.
Proof.
  intro H. unfold rune_len. destruct s as [|a [|b r]]; [congruence|cbn; lia|]. destruct (_ && _); [cbn; lia|]. destruct r as [|c r]; [cbn; lia|]. destruct (_ && _); [cbn; lia|]. destruct r as [|d r]; [cbn; lia|]. destruct (_ && _); cbn; lia.
Qed.
Lemma rune_word c r : is_word c = true -> rune_len (c :: r) = 1.
Proof.
  intro W. assert (V : (val c < 128)%N). { unfold is_word, within in W. destruct (ceqb c "_"%char) eqn:E; [apply Ascii.eqb_eq in E; subst; reflexivity|]. rewrite orb_false_r in W. repeat (apply orb_prop in W; destruct W as [W|W]); apply andb_prop in W; destruct W as [_ W]; apply N.leb_le in W; lia. }
  assert (X : forall lo hi, (128 <= lo)%N -> within lo hi c = false). { intros lo hi H. unfold within. destruct (N.leb_spec lo (val c)); [lia|reflexivity]. }
  unfold rune_len. destruct r as [|b r]; [reflexivity|]. rewrite !X by lia. cbn [andb]. destruct r as [|d r]; [reflexivity|]. destruct r; reflexivity.
Qed.
Lemma url_end_le fuel s : url_end fuel s <= length s.
Proof.
  revert s. induction fuel as [|f IH]; intros [|c r]; cbn [url_end]; try (cbn; lia).
  - destruct (_ || _); [cbn; lia|]. destruct (_ && _); cbn; lia.
  - destruct (_ || _); [cbn; lia|]. destruct (_ && _); [cbn; lia|]. pose proof (rune_len_bounds (c :: r) ltac:(discriminate)). specialize (IH (skipn (rune_len (c :: r)) (c :: r))). rewrite skipn_length in IH. lia.
Qed.
(** where an address stops: at the end, or before a character that is no letter; and that, if a colon, is the last before a space, a newline or the end *)
Lemma url_end_stop fuel s : length s <= fuel -> match skipn (url_end fuel s) s with [] => True | c :: r => is_word c = false /\ (c = ":"%char -> stops r = true) end.
Proof.
  revert s. induction fuel as [|f IH]; intros s L.
  - destruct s; [exact I|cbn in L; lia].
  - destruct s as [|c r]; [exact I|]. cbn [url_end]. destruct (ceqb c newline || _ || _) eqn:E.
    { cbn [skipn]. apply orb_prop in E. destruct E as [E|E]; [apply orb_prop in E; destruct E as [E|E]|]; apply Ascii.eqb_eq in E; subst c; (split; [reflexivity|discriminate]). }
    destruct (is_word c) eqn:W; cbn [negb andb].
    + pose proof (rune_len_bounds (c :: r) ltac:(discriminate)). rewrite skipn_add. apply IH. rewrite skipn_length. cbn [length] in *. lia.
    + destruct (stops (skipn (rune_len (c :: r)) (c :: r))) eqn:S.
      * cbn [skipn]. split; [exact W|]. intros ->. assert (R : rune_len (":"%char :: r) = 1). { unfold rune_len. destruct r as [|b r]; [reflexivity|]. cbn [within val]. destruct r as [|d r]; [reflexivity|]. destruct r; reflexivity. } rewrite R in S. exact S.
      * pose proof (rune_len_bounds (c :: r) ltac:(discriminate)). rewrite skipn_add. apply IH. rewrite skipn_length. cbn [length] in *. lia.
Qed.

(** ** One round *)
Section Parse.
Context (url_host : str -> option str).
Definition finish (s : str) (prev : nat) : outcome (list block) := if Nat.eqb prev (length s) then Ok [] else obind (slice s prev (length s)) (fun t => Ok [mkBlock t prev None]).
Definition round_block (s : str) (u : nat) (w : str) (to : nat) (t : str) (p : bpointer) : Prop :=
  In w (B "nostr" :: schemes) /\ ends_at s u w = true /\ u + 4 <= to /\ to <= length s /\ slice s (u - length w) to = Ok t /\
  (exists r, slice s (u + 1) to = Ok r /\
    ((w = B "nostr" /\ exists d, nip19_decode r = Ok d /\ reference d = Some p /\ match skipn to s with [] => True | c :: _ => is_word c = false end) \/
     (In w schemes /\ p = BUrl t /\ dotted (url_host t) = true /\ match skipn to s with [] => True | c :: r' => is_word c = false /\ (c = ":"%char -> stops r' = true) end))).
Definition the_url (f : nat) (s : str) (prev u prefix_len : nat) : outcome (list block) :=
  let to := u + 4 + url_end (length s) (skipn (u + 4) s) in
  obind (slice s (u - prefix_len) to) (fun t => if dotted (url_host t) then emit s prev (u - prefix_len) to (BUrl t) (parse_loop url_host f s to to) else parse_loop url_host f s (to + 1) prev).
Definition round_result (f : nat) (s : str) (index prev : nat) (R : outcome (list block)) : Prop :=
  (exists i', index < i' /\ index < length s /\ R = parse_loop url_host f s i' prev) \/
  (exists u w to t p, index <= u /\ u < length s /\ nth_error s u = Some ":"%char /\ round_block s u w to t p /\ R = emit s prev (u - length w) to p (parse_loop url_host f s to to)) \/
  (R = Panic /\ exists i j c, slice s i j = Ok c /\ nip19_decode c = Panic).
Lemma url_round f s index prev u w : index <= u -> u + 4 < length s -> nth_error s u = Some ":"%char -> In w schemes -> ends_at s u w = true -> round_result f s index prev (the_url f s prev u (length w)).
Proof.
  intros HI HU C W E. unfold the_url. cbv zeta. pose proof (url_end_le (length s) (skipn (u + 4) s)) as L. rewrite skipn_length in L. set (to := u + 4 + url_end _ _) in *. destruct (ends_slice _ _ _ E ltac:(lia)) as [LW SW].
  rewrite slice_ok by lia. cbn [obind]. set (t := firstn _ _). destruct (dotted (url_host t)) eqn:D.
  - right. left. exists u, w, to, t, (BUrl t). repeat split; try lia; try assumption. { right. exact W. } { rewrite slice_ok by lia. reflexivity. }
    exists (firstn (to - (u + 1)) (skipn (u + 1) s)). split; [apply slice_ok; lia|]. right. repeat split; try assumption. pose proof (url_end_stop (length s) (skipn (u + 4) s)) as X. rewrite skipn_length in X. specialize (X ltac:(lia)). rewrite <- skipn_add in X. exact X.
  - left. exists (to + 1). repeat split; lia.
Qed.
Lemma round f s index prev : (exists R, parse_loop url_host (S f) s index prev = R /\ R = finish s prev) \/ round_result f s index prev (parse_loop url_host (S f) s index prev).
Proof.
  cbn [parse_loop]. fold (finish s prev). destruct (Nat.ltb_spec index (length s)) as [HI|HI]; [|left; eauto]. destruct (index_colon (skipn index s)) as [pu|] eqn:IC; [|left; eauto]. right. apply colon_at in IC. destruct IC as [C _]. rewrite nth_error_skip, (Nat.add_comm index pu) in C. set (u := pu + index) in *. assert (HU : index <= u) by lia. assert (LU : u < length s) by (apply nth_error_Some; congruence). clearbody u. cbv zeta.
  destruct (ends_at s u (B "nostr")) eqn:EN; [destruct (Nat.ltb_spec (u + 60) (length s)) as [L60|L60]|]; cbn [andb].
  { pose proof (code_end_le (skipn (u + 60) s)) as L. rewrite skipn_length in L. set (to := u + 60 + code_end (skipn (u + 60) s)) in *. rewrite slice_ok by lia. cbn [obind]. set (c := firstn _ _). destruct (nip19_decode c) as [d| |] eqn:ED.
    - destruct (reference d) as [p|] eqn:ER; [|left; exists (to + 1); repeat split; lia]. right. left. destruct (ends_slice _ _ _ EN ltac:(lia)) as [LW SW]. change (length (B "nostr")) with 5 in *. exists u, (B "nostr"), to, (firstn (to - (u - 5)) (skipn (u - 5) s)), p. change (length (B "nostr")) with 5.
      repeat split; try lia; try assumption. { left. reflexivity. } { apply slice_ok; lia. } exists c. split; [apply slice_ok; lia|]. left. split; [reflexivity|]. exists d. repeat split; try assumption. unfold to. rewrite skipn_add. apply code_end_stop.
    - left. exists (u + 1). repeat split; lia.
    - right. right. split; [reflexivity|]. exists (u + 1), to, c. split; [apply slice_ok; lia|exact ED]. }
  1,2: destruct ((ends_at s u (B "https") || ends_at s u (B "http")) && (u + 4 <? length s)) eqn:EH; [|destruct ((ends_at s u (B "wss") || ends_at s u (B "ws")) && (u + 4 <? length s)) eqn:EW; [|left; exists (u + 1); repeat split; lia]].
  1,3: apply andb_prop in EH; destruct EH as [EH L4]; apply Nat.ltb_lt in L4; apply orb_prop in EH; destruct EH as [EH|EH];
    [assert (X := ends_char _ _ _ 4 EH ltac:(cbn; lia)); destruct (ends_slice _ _ _ EH ltac:(lia)) as [LW _]; change (length (B "https")) with 5 in *; replace (u - 5 + 4) with (u - 1) in X by lia; rewrite X; change (nth 4 (B "https") " "%char) with "s"%char; cbn [ceqb Ascii.eqb Bool.eqb]; apply (url_round f s index prev u (B "https")); try assumption; right; left; reflexivity
    |assert (X := ends_char _ _ _ 3 EH ltac:(cbn; lia)); destruct (ends_slice _ _ _ EH ltac:(lia)) as [LW _]; change (length (B "http")) with 4 in *; replace (u - 4 + 3) with (u - 1) in X by lia; rewrite X; change (nth 3 (B "http") " "%char) with "p"%char; cbn [ceqb Ascii.eqb Bool.eqb]; apply (url_round f s index prev u (B "http")); try assumption; left; reflexivity].
  1,2: apply andb_prop in EW; destruct EW as [EW L4]; apply Nat.ltb_lt in L4; apply orb_prop in EW; destruct EW as [EW|EW];
    [assert (X := ends_char _ _ _ 1 EW ltac:(cbn; lia)); destruct (ends_slice _ _ _ EW ltac:(lia)) as [LW _]; change (length (B "wss")) with 3 in *; replace (u - 3 + 1) with (u - 2) in X by lia; rewrite X; change (nth 1 (B "wss") " "%char) with "s"%char; cbn [ceqb Ascii.eqb Bool.eqb]; apply (url_round f s index prev u (B "wss")); try assumption; right; right; right; left; reflexivity
    |assert (X := ends_char _ _ _ 0 EW ltac:(cbn; lia)); destruct (ends_slice _ _ _ EW ltac:(lia)) as [LW _]; change (length (B "ws")) with 2 in *; replace (u - 2 + 0) with (u - 2) in X by lia; rewrite X; change (nth 0 (B "ws") " "%char) with "w"%char; cbn [ceqb Ascii.eqb Bool.eqb]; apply (url_round f s index prev u (B "ws")); try assumption; right; right; left; reflexivity].
Qed.
Lemma dotted_spec h : dotted h = true -> exists x, h = Some x /\ In "."%char x.
Proof. destruct h as [x|]; [|discriminate]. cbn. intro H. apply existsb_exists in H. destruct H as (c & I & E). apply Ascii.eqb_eq in E. subst. eauto. Qed.
Lemma reference_spec r d p : nip19_decode r = Ok d -> reference d = Some p -> exists q, p = BPtr q /\ to_pointer r = Ok q.
Proof.
  intros H R. unfold to_pointer. rewrite H. cbn [obind]. destruct d as [pre [h|q]]; cbn [reference] in R; [destruct (seqb pre (B "npub")); [|discriminate]|]; eexists; (split; [symmetry; injection R as R; exact R|reflexivity]).
Qed.
Lemma block_truthful s u w to t p st : nth_error s u = Some ":"%char -> round_block s u w to t p -> truthful url_host (mkBlock t st (Some p)) /\ t <> [].
Proof.
  intros C (W & E & L1 & L2 & S & r & SR & K). assert (LU : u < length s) by (apply nth_error_Some; congruence). destruct (ends_slice _ _ _ E ltac:(lia)) as [LW SW]. assert (SC := slice_one _ _ _ C). assert (T : t = w ++ B ":" ++ r).
  { assert (Q : exists q, slice s u to = Ok q) by (eexists; apply slice_ok; lia). destruct Q as [q Q]. rewrite (slice_join _ _ _ _ _ _ _ SW Q S). f_equal. rewrite (slice_join _ _ _ _ _ _ _ SC SR Q). reflexivity. }
  split; [|intros ->; apply (f_equal (@length _)) in T; rewrite app_length in T; cbn in T; lia]. unfold truthful. cbn [b_pointer b_text]. destruct K as [(-> & d & D & R & _)|(W' & -> & D & _)].
  - destruct (reference_spec _ _ _ D R) as (q & -> & Q). exists r. split; [exact T|exact Q].
  - split; [reflexivity|]. split; [apply dotted_spec; exact D|]. exists w, r. split; [exact W'|exact T].
Qed.
Lemma emit_ok s prev from to p rest bs : emit s prev from to p rest = Ok bs -> from < to -> exists before t r, rest = Ok r /\ slice s from to = Ok t /\ bs = before ++ mkBlock t from (Some p) :: r /\
  ((prev = from /\ before = []) \/ (prev < from /\ exists tb, slice s prev from = Ok tb /\ before = [mkBlock tb prev None])).
Proof.
  unfold emit. intros H L. destruct (Nat.eqb_spec prev from) as [->|N].
  - cbn [obind] in H. destruct (slice s from to) as [t| |]; [|discriminate|discriminate]. destruct rest as [r| |]; [|discriminate|discriminate]. cbn [obind] in H. exists [], t, r. repeat split; [congruence|left; split; reflexivity].
  - destruct (slice s prev from) as [tb| |] eqn:SB; [|discriminate|discriminate]. cbn [obind] in H. destruct (slice s from to) as [t| |]; [|discriminate|discriminate]. destruct rest as [r| |]; [|discriminate|discriminate]. cbn [obind] in H. exists [mkBlock tb prev None], t, r. repeat split; [congruence|]. right. pose proof (slice_inv _ _ _ _ SB). split; [lia|]. exists tb. auto.
Qed.
Lemma loop_ok fuel s : forall index prev bs, prev <= length s -> parse_loop url_host fuel s index prev = Ok bs -> tiles (skipn prev s) bs prev /\ Forall (truthful url_host) bs /\ no_two_texts bs.
Proof.
  induction fuel as [|f IH]; intros index prev bs LP H; [discriminate|]. destruct (round f s index prev) as [(R & E & F)|[(i' & _ & _ & E)|[(u & w & to & t & p & HU & LU & C & RB & E)|(E & _)]]]; rewrite E in H; [|eauto| |discriminate].
  - rewrite F in H. unfold finish in H. destruct (Nat.eqb_spec prev (length s)) as [->|N]. { assert (bs = []) as -> by congruence. rewrite skipn_all. repeat split; constructor. }
    destruct (slice s prev (length s)) as [tt| |] eqn:S; [|discriminate|discriminate]. cbn [obind] in H. assert (bs = [mkBlock tt prev None]) as -> by congruence. destruct (slice_rest _ _ _ _ S) as [R1 R2]. rewrite skipn_all, app_nil_r in R1. split; [|split; [repeat constructor|exact I]].
    cbn [tiles b_start b_text]. split; [reflexivity|]. split; [intros ->; cbn in R2; lia|]. exists []. rewrite app_nil_r. split; [exact R1|reflexivity].
  - pose proof RB as RB'. destruct RB' as (_ & EA & L1 & L2 & S & _). destruct (ends_slice _ _ _ EA ltac:(lia)) as [LW _]. assert (W0 : 0 < length w) by (destruct RB as ([<-|[<-|[<-|[<-|[<-|[]]]]]] & _); cbn; lia). apply emit_ok in H; [|lia]. destruct H as (before & t' & r & HR & S' & -> & HB). assert (t' = t) as -> by congruence.
    destruct (IH _ _ _ L2 HR) as (I1 & I2 & I3). destruct (block_truthful _ _ _ _ _ _ (u - length w) C RB) as [T1 T2]. destruct (slice_rest _ _ _ _ S) as [R1 R2].
    assert (J : tiles (skipn (u - length w) s) (mkBlock t (u - length w) (Some p) :: r) (u - length w)). { cbn [tiles b_start b_text]. split; [reflexivity|]. split; [exact T2|]. exists (skipn to s). split; [exact R1|]. replace (u - length w + length t) with to by lia. exact I1. }
    assert (N2 : no_two_texts (mkBlock t (u - length w) (Some p) :: r)). { destruct r as [|b r]; [exact I|]. split; [intros [X _]; discriminate X|exact I3]. }
    destruct HB as [[-> ->]|(LB & tb & SB & ->)].
    + split; [exact J|]. split; [constructor; assumption|exact N2].
    + cbn [app]. destruct (slice_rest _ _ _ _ SB) as [B1 B2]. split; [|split; [constructor; [exact I|constructor; assumption]|split; [intros [_ X]; discriminate X|exact N2]]]. cbn [tiles b_start b_text]. split; [reflexivity|]. split; [intros ->; cbn in B2; lia|]. exists (skipn (u - length w) s). split; [exact B1|]. replace (prev + length tb) with (u - length w) by lia. exact J.
Qed.
End Parse.

(** * C73: nothing is lost *)
Theorem C73_lossless url_host s bs : parse_blocks url_host s = Ok bs -> tiles s bs 0 /\ concat (map b_text bs) = s.
Proof.
  intro H. destruct (loop_ok url_host _ s 0 0 bs ltac:(lia) H) as (T & _ & _). cbn [skipn] in T. split; [exact T|]. clear H. revert s T. generalize 0. induction bs as [|b bs IH]; intros n s T; cbn [tiles map concat] in *; [symmetry; exact T|]. destruct T as (_ & _ & s' & -> & T). rewrite (IH _ _ T). reflexivity.
Qed.
(** Each block is what it says: a code decodes to its pointer, an address is one. *)
Theorem C73_truthful url_host s bs : parse_blocks url_host s = Ok bs -> Forall (truthful url_host) bs /\ no_two_texts bs.
Proof. intro H. destruct (loop_ok url_host _ s 0 0 bs ltac:(lia) H) as (_ & T & N). auto. Qed.

(** ** Crashes *)
(** the last six characters of a code are from the alphabet *)
Definition letter (c : ascii) : Prop := value_of (lower c) <> None.
Lemma nip19_tail r d : nip19_decode r = Ok d -> exists a z, r = a ++ z /\ length z = 6 /\ Forall letter z.
Proof.
  intro H. unfold nip19_decode in H. destruct (decode r) as [[h ds]| |] eqn:E; try discriminate. clear H. unfold decode in E. destruct (Nat.ltb_spec (length r) 8); [discriminate|]. destruct (negb _); [discriminate|]. destruct (_ && _); [discriminate|]. destruct (split_last (map lower r)) as [[h' dd]|] eqn:S; [|discriminate]. destruct (Nat.eqb (length h') 0 || Nat.ltb (length dd) 6) eqn:L; [discriminate|]. apply orb_false_elim in L. destruct L as [_ L]. apply Nat.ltb_ge in L. destruct (to_values dd) as [vs|] eqn:T; [|discriminate]. clear E.
  apply split_last_inv in S. destruct S as [S _]. assert (LR : length r = length h' + 1 + length dd). { rewrite <- (map_length lower r), S, app_length. cbn. lia. }
  exists (firstn (length r - 6) r), (skipn (length r - 6) r). split; [symmetry; apply firstn_skipn|]. split; [rewrite skipn_length; lia|]. unfold letter.
  assert (X : Forall (fun c => value_of c <> None) (skipn (length r - 6) (map lower r))).
  { rewrite S. replace (length r - 6) with (length (h' ++ ["1"%char]) + (length dd - 6)) by (rewrite app_length; cbn; lia). rewrite skipn_add. change (h' ++ "1"%char :: dd) with (h' ++ ["1"%char] ++ dd). rewrite app_assoc. rewrite skipn_app, skipn_all, Nat.sub_diag. cbn [skipn app]. clear - T. assert (F : Forall (fun c => value_of c <> None) dd). { revert vs T. induction dd as [|c dd IH]; intros vs T; [constructor|]. cbn [to_values] in T. destruct (value_of c) eqn:V; [|discriminate]. destruct (to_values dd) eqn:W; [|discriminate]. constructor; [congruence|eauto]. } apply Forall_forall. intros c I. apply (proj1 (Forall_forall _ _) F). rewrite <- (firstn_skipn (length dd - 6) dd). apply in_or_app. right. exact I. }
  rewrite skipn_map in X. rewrite Forall_map in X. exact X.
Qed.
Lemma letter_word c : letter c -> is_word c = true.
Proof.
  assert (A : forall n, (n < 256)%N -> (match value_of (lower (byte_of n)) with Some _ => is_word (byte_of n) | None => true end) = true). { intros n H. apply (below 256 (fun n => match value_of (lower (byte_of n)) with Some _ => is_word (byte_of n) | None => true end)); [vm_compute; reflexivity|exact H]. }
  intro L. specialize (A (val c) (val_lt c)). rewrite byte_of_val in A. unfold letter in L. destruct (value_of (lower c)); [exact A|congruence].
Qed.
(** a code has no space in it and is not empty *)
Lemma nip19_start r d : nip19_decode r = Ok d -> stops r = false.
Proof.
  intro H. unfold nip19_decode in H. destruct (decode r) as [x| |] eqn:E; try discriminate. clear H. unfold decode in E. destruct (Nat.ltb_spec (length r) 8); [discriminate|]. destruct (forallb _ r) eqn:F; [|discriminate]. destruct r as [|c r]; [cbn in *; lia|]. cbn [forallb] in F. apply andb_prop in F. destruct F as [F _]. cbn [stops]. destruct (ceqb c " "%char) eqn:E1; [apply Ascii.eqb_eq in E1; subst; discriminate|]. destruct (ceqb c newline) eqn:E2; [apply Ascii.eqb_eq in E2; subst; discriminate|]. reflexivity.
Qed.
(** Spec of the contents for which there is no crash: no address begins in the middle of a word. *)
Definition not_glued (s : str) : Prop := forall a w b, In w schemes -> s = a ++ w ++ B ":" ++ b -> forall a' c, a = a' ++ [c] -> is_word c = false.
(** a law of net/url: what follows the colon decides whether there is a host *)
Definition host_law (url_host : str -> option str) : Prop := forall w r h, In w schemes -> stops r = true -> url_host (w ++ B ":" ++ r) = Some h -> ~ In "."%char h.
Section NoCrash.
Context (url_host : str -> option str) (law : host_law url_host) (s : str) (NG : not_glued s) (ND : forall a b c, s = a ++ c ++ b -> nip19_decode c <> Panic).
Definition bound (prev : nat) : Prop := prev = 0 \/ match skipn prev s with [] => True | c :: r => is_word c = false /\ (c = ":"%char -> stops r = true \/ exists i code d, slice s i prev = Ok code /\ nip19_decode code = Ok d) end.
Lemma slice_parts i j t : slice s i j = Ok t -> s = firstn i s ++ t ++ skipn j s.
Proof. intro H. destruct (slice_rest _ _ _ _ H) as [R _]. rewrite <- R. symmetry. apply firstn_skipn. Qed.
Lemma nth_skip u c : nth_error s u = Some c -> exists r, skipn u s = c :: r.
Proof. intro H. rewrite <- (Nat.add_0_r u) in H. rewrite <- nth_error_skip in H. destruct (skipn u s) as [|x r]; [discriminate|]. cbn in H. exists r. congruence. Qed.
Lemma scheme_words w : In w (B "nostr" :: schemes) -> Forall (fun c => is_word c = true) w /\ length w <= 5.
Proof. intros [<-|[<-|[<-|[<-|[<-|[]]]]]]; split; try (cbn; lia); repeat constructor. Qed.
Lemma tail_eq {A} (a b w : list A) : length w <= length b -> (exists x, x ++ w = a ++ b) -> exists y, b = y ++ w.
Proof.
  intros L (x & E). exists (firstn (length b - length w) b). assert (X : skipn (length (a ++ b) - length w) (a ++ b) = w). { rewrite <- E. rewrite app_length. replace (length x + length w - length w) with (length x) by lia. rewrite skipn_app, skipn_all, Nat.sub_diag. reflexivity. }
  rewrite app_length in X. replace (length a + length b - length w) with (length a + (length b - length w)) in X by lia. rewrite skipn_add in X. rewrite skipn_app, skipn_all, Nat.sub_diag in X. cbn [skipn app] in X. rewrite <- X at 2. symmetry. apply firstn_skipn.
Qed.
Lemma room prev u w to t p : bound prev -> prev <= u -> u < length s -> nth_error s u = Some ":"%char -> round_block url_host s u w to t p -> prev <= u - length w.
Proof.
  intros [->|HB] LP LU C (W & E & L1 & L2 & S & r & SR & K); [lia|]. destruct (scheme_words w W) as [WW W5]. destruct (ends_slice _ _ _ E ltac:(lia)) as [LW SW]. destruct (Nat.le_gt_cases prev (u - length w)) as [|G]; [assumption|exfalso].
  destruct (Nat.eq_dec u prev) as [->|NE].
  - destruct (nth_skip _ _ C) as [r' R']. rewrite R' in HB. destruct HB as [_ HB]. specialize (HB eq_refl).
    assert (RR : slice s (prev + 1) to = Ok r -> r' = r ++ skipn to s). { intro X. destruct (slice_rest _ _ _ _ X) as [Y _]. rewrite <- Y. rewrite skipn_add, R'. reflexivity. } specialize (RR SR).
    destruct HB as [ST|(i & code & d & SC & DC)].
    + assert (ST' : stops r = true). { rewrite RR in ST. destruct r as [|c r0]; [reflexivity|exact ST]. } destruct K as [(_ & d & D & _)|(W' & -> & D & _)]; [apply nip19_start in D; congruence|].
      apply dotted_spec in D. destruct D as (h & D1 & D2). assert (T : t = w ++ B ":" ++ r). { assert (Q : exists q, slice s prev to = Ok q) by (eexists; apply slice_ok; lia). destruct Q as [q Q]. rewrite (slice_join _ _ _ _ _ _ _ SW Q S). f_equal. rewrite (slice_join _ _ _ _ _ _ _ (slice_one _ _ _ C) SR Q). reflexivity. } subst t. exact (law w r h W' ST' D1 D2).
    + clear RR. destruct (nip19_tail _ _ DC) as (a & z & -> & LZ & FZ). assert (X : exists y, z = y ++ w).
      { apply (tail_eq (firstn i s ++ a) z w); [lia|]. exists (firstn (prev - length w) s). pose proof (slice_parts _ _ _ SC) as P1. pose proof (slice_parts _ _ _ SW) as P2. rewrite P2 in P1 at 1. rewrite !app_assoc in P1. apply app_inv_tail in P1. rewrite !app_assoc in *. exact P1. }
      destruct X as [y ->]. destruct (K) as [(-> & _)|(W' & _)].
      * apply Forall_app in FZ. destruct FZ as [_ FZ]. inversion FZ as [|? ? _ FZ']; subst. inversion FZ' as [|? ? BAD _]; subst. apply BAD. reflexivity.
      * apply Forall_app in FZ. destruct FZ as [FZ _]. rewrite app_length in LZ. destruct (rev y) as [|c y'] eqn:EY. { assert (y = []) as -> by (rewrite <- (rev_involutive y), EY; reflexivity). cbn in LZ. lia. }
        assert (y = rev y' ++ [c]) as -> by (rewrite <- (rev_involutive y), EY; reflexivity). apply Forall_app in FZ. destruct FZ as [_ FZ]. inversion FZ as [|? ? LC _]; subst. apply letter_word in LC.
        pose proof (slice_parts _ _ _ SC) as P1. rewrite R' in P1. specialize (NG (firstn i s ++ a ++ rev y' ++ [c]) w r' W'). rewrite (NG ltac:(rewrite P1 at 1; rewrite <- !app_assoc; reflexivity) (firstn i s ++ a ++ rev y') c ltac:(rewrite <- !app_assoc; reflexivity)) in LC. discriminate.
  - assert (PI : prev < length s) by lia. assert (exists c, nth_error s prev = Some c) as [c NC] by (destruct (nth_error s prev) eqn:Z; [eauto|apply nth_error_None in Z; lia]). destruct (nth_skip _ _ NC) as [r' R']. rewrite R' in HB. destruct HB as [NW _].
    assert (X := ends_char s u w (prev - (u - length w)) E ltac:(lia)). replace (u - length w + (prev - (u - length w))) with prev in X by lia. rewrite (nth_error_nth _ _ _ NC) in X. assert (Y : is_word c = true). { rewrite X. apply (proj1 (Forall_forall _ _) WW). apply nth_In. lia. } congruence.
Qed.
Lemma loop_total fuel : forall index prev, length s < fuel + index -> 0 < fuel -> prev <= index -> prev <= length s -> bound prev -> exists bs, parse_loop url_host fuel s index prev = Ok bs.
Proof.
  induction fuel as [|f IH]; intros index prev HF H0 HP HL HB; [lia|]. destruct (round url_host f s index prev) as [(R & E & F)|[(i' & L1 & L2 & E)|[(u & w & to & t & p & HU & LU & C & RB & E)|(E & i & j & c & SC & DC)]]].
  - rewrite E, F. unfold finish. destruct (Nat.eqb_spec prev (length s)); [eauto|]. rewrite slice_ok by lia. cbn [obind]. eauto.
  - rewrite E. apply IH; try lia. exact HB.
  - rewrite E. assert (RM := room prev u w to t p HB ltac:(lia) LU C RB). destruct RB as (W & EA & L1 & L2 & S & r & SR & K). destruct (IH to to) as [bs X]; try lia.
    { right. destruct K as [(_ & d & D & _ & ST)|(_ & _ & _ & ST)].
      - destruct (skipn to s) as [|x r']; [exact I|]. split; [exact ST|]. intros _. right. exists (u + 1), r, d. auto.
      - destruct (skipn to s) as [|x r']; [exact I|]. destruct ST as [ST1 ST2]. split; [exact ST1|]. intro Q. left. exact (ST2 Q). }
    unfold emit. rewrite X, S. destruct (Nat.eqb_spec prev (u - length w)); cbn [obind]; [eauto|]. rewrite slice_ok by lia. cbn [obind]. eauto.
  - exfalso. destruct (ND (firstn i s) (skipn j s) c); [|exact DC]. apply slice_parts. exact SC.
Qed.
End NoCrash.
(** No crash when no address begins in the middle of a word and no code in the text crashes the decoder. Missing: both do happen, below. *)
Theorem C73_no_crash_partial url_host s : host_law url_host -> not_glued s -> (forall a b c, s = a ++ c ++ b -> nip19_decode c <> Panic) -> exists bs, parse_blocks url_host s = Ok bs.
Proof. intros H1 H2 H3. apply loop_total; try assumption; try lia. left. reflexivity. Qed.
(** A code that ends in "ws", with "://" after it: the block before would end before it begins. *)
Definition glued_text : str := B "nostr:npub1qqqqqqqqqqqqqqqqqqqqqqqqqqqqqqqqqqqqqqqqqqqqqqqqqtestpldws://x.y".
Lemma demo_law : host_law demo_host.
Proof. intros w r h W ST H I. unfold demo_host in H. destruct W as [<-|[<-|[<-|[<-|[]]]]]; cbn in H; (destruct r as [|a [|b r]]; [assert (h = []) as -> by congruence; exact I|assert (h = []) as -> by congruence; exact I|]); cbn [stops] in ST; (destruct (ceqb a "/"%char) eqn:E; [apply Ascii.eqb_eq in E; subst a; discriminate|cbn [andb] in H; assert (h = []) as -> by congruence; exact I]). Qed.
Theorem C73_crash_refuted : exists url_host s, host_law url_host /\ parse_blocks url_host s = Panic.
Proof. exists demo_host, glued_text. split; [exact demo_law|]. vm_compute. reflexivity. Qed.
(** A code whose kind is one byte long crashes the decoder, and with it any text it appears in. *)
Definition short_kind : str := or_empty (to_code (B "naddr") (write_tlv TLVDefault (B "a-long-enough-identifier-for-sixty-characters") ++ write_tlv TLVKind (B "k"))).
Lemma one_colon (x y p q : str) : x ++ ":"%char :: y = p ++ ":"%char :: q -> ~ In ":"%char p -> ~ In ":"%char q -> x = p.
Proof.
  revert p. induction x as [|c x IH]; intros [|d p] E NP NQ; cbn [app] in E; [reflexivity| | |].
  - destruct NP. left. congruence.
  - destruct NQ. assert (q = x ++ ":"%char :: y) as -> by congruence. apply in_or_app. right. left. reflexivity.
  - assert (c = d) as -> by congruence. f_equal. apply IH; [congruence| |exact NQ]. intro I. apply NP. right. exact I.
Qed.
Lemma no_colon_b s : forallb (fun c => negb (ceqb c ":"%char)) s = true -> ~ In ":"%char s.
Proof. intros H I. rewrite forallb_forall in H. specialize (H _ I). discriminate. Qed.
Theorem C73_bad_code_refuted : exists s, not_glued s /\ parse_blocks demo_host s = Panic.
Proof.
  exists (B "nostr:" ++ short_kind). split; [|vm_compute; reflexivity]. intros a w b W E. exfalso. symmetry in E. change (B "nostr:" ++ short_kind) with (B "nostr" ++ ":"%char :: short_kind) in E. rewrite app_assoc in E. apply one_colon in E; [|apply no_colon_b; vm_compute; reflexivity|apply no_colon_b; vm_compute; reflexivity].
  apply (f_equal (@rev _)) in E. rewrite rev_app_distr in E. destruct W as [<-|[<-|[<-|[<-|[]]]]]; discriminate.
Qed.

(** ** What is found *)
Lemma index_colon_app a b : ~ In ":"%char a -> index_colon (a ++ ":"%char :: b) = Some (length a).
Proof. induction a as [|c a IH]; intro H; [reflexivity|]. cbn [app index_colon length]. destruct (ceqb c ":"%char) eqn:E; [apply Ascii.eqb_eq in E; subst; destruct H; left; reflexivity|]. rewrite IH; [reflexivity|]. intro I. apply H. right. exact I. Qed.
Lemma code_end_word a b : Forall (fun c => is_word c = true) a -> match b with [] => True | c :: _ => is_word c = false end -> code_end (a ++ b) = length a.
Proof. intros F SB. induction F as [|c a H F IH]; cbn [app code_end length]. { destruct b as [|d b]; [reflexivity|]. cbn. rewrite SB. reflexivity. } rewrite H, IH. reflexivity. Qed.
Lemma skipn_len_app {A} (a b : list A) n : n = length a -> skipn n (a ++ b) = b.
Proof. intros ->. rewrite skipn_app, skipn_all, Nat.sub_diag. reflexivity. Qed.
(** The first reference of a text, followed by something that is no word character, is found with its pointer. *)
Theorem C73_found url_host a code b d p bs : ~ In ":"%char a -> 59 <= length code -> 60 <= length code + length b -> Forall (fun c => is_word c = true) code -> match b with [] => True | c :: _ => is_word c = false end ->
  nip19_decode code = Ok d -> reference d = Some p -> parse_blocks url_host (a ++ B "nostr:" ++ code ++ b) = Ok bs ->
  exists rest, bs = (match a with [] => [] | _ => [mkBlock a 0 None] end) ++ mkBlock (B "nostr:" ++ code) (length a) (Some p) :: rest.
Proof.
  intros NA LC LB WC SB D R H. set (s := a ++ B "nostr:" ++ code ++ b) in *. set (u := length a + 5). assert (LS : length s = length a + 6 + length code + length b). { unfold s. rewrite !app_length. cbn. lia. }
  unfold parse_blocks in H. cbn [parse_loop] in H. destruct (Nat.ltb_spec 0 (length s)); [|lia]. cbn [skipn] in H.
  assert (S1 : s = (a ++ B "nostr") ++ ":"%char :: code ++ b). { unfold s. rewrite <- app_assoc. reflexivity. }
  assert (IC : index_colon s = Some u). { rewrite S1, index_colon_app. { rewrite app_length. reflexivity. } intro I. apply in_app_or in I. destruct I as [I|I]; [exact (NA I)|]. revert I. apply no_colon_b. reflexivity. }
  rewrite IC, Nat.add_0_r in H. cbv zeta in H.
  assert (E : ends_at s u (B "nostr") = true). { unfold ends_at. change (length (B "nostr")) with 5. apply andb_true_intro. split; [apply Nat.leb_le; unfold u; lia|]. replace (u - 5) with (length a) by (unfold u; lia). unfold s. rewrite skipn_len_app by reflexivity. cbn [app B firstn]. reflexivity. }
  rewrite E in H. destruct (Nat.ltb_spec (u + 60) (length s)) as [L|L]; [|unfold u in L; lia]. cbn [andb] in H.
  assert (K : skipn (u + 1) s = code ++ b). { rewrite S1. change (":"%char :: code ++ b) with ([":"%char] ++ code ++ b). rewrite app_assoc. apply skipn_len_app. rewrite !app_length. cbn. unfold u. lia. }
  assert (CE : u + 60 + code_end (skipn (u + 60) s) = u + 1 + length code). { replace (u + 60) with (u + 1 + 59) at 2 by lia. rewrite skipn_add, K. rewrite skipn_app. replace (59 - length code) with 0 by lia. change (skipn 0 b) with b. rewrite code_end_word; [rewrite skipn_length; lia| |exact SB]. apply Forall_forall. intros c I. apply (proj1 (Forall_forall _ _) WC). rewrite <- (firstn_skipn 59 code). apply in_or_app. right. exact I. }
  rewrite CE in H. rewrite slice_ok in H by (unfold u in *; lia). rewrite K in H. replace (u + 1 + length code - (u + 1)) with (length code + 0) in H by lia. rewrite firstn_app_2 in H. cbn [firstn] in H. rewrite app_nil_r in H. cbn [obind] in H. rewrite D, R in H.
  destruct (emit_ok url_host _ _ _ _ _ _ _ H ltac:(unfold u; lia)) as (before & t & r & _ & ST & -> & HB). exists r. replace (u - 5) with (length a) in * by (unfold u; lia). apply slice_inv in ST. destruct ST as (_ & _ & ST). unfold s in ST at 1. rewrite skipn_len_app in ST by reflexivity. replace (u + 1 + length code - length a) with (length (B "nostr:" ++ code) + 0) in ST by (rewrite app_length; cbn; unfold u; lia). rewrite app_assoc, firstn_app_2 in ST. cbn [firstn] in ST. rewrite app_nil_r in ST. subst t.
  destruct HB as [[Z ->]|(LZ & tb & SB' & ->)]. { destruct a; [reflexivity|discriminate Z]. } apply slice_inv in SB'. destruct SB' as (_ & _ & SB'). cbn [skipn] in SB'. rewrite Nat.sub_0_r in SB'. unfold s in SB'. rewrite <- (Nat.add_0_r (length a)), firstn_app_2 in SB'. cbn [firstn] in SB'. rewrite app_nil_r in SB'. subst tb. destruct a; [cbn in LZ; lia|reflexivity].
Qed.
Definition bob : str := B "npub1qqqqqqqqqqqqqqqqqqqqqqqqqqqqqqqqqqqqqqqqqqqqqqqqqtestpldws".
Example C73_applies : exists bs, parse_blocks demo_host (B "hi nostr:" ++ bob ++ B ", see https://a.b/c?d=e.") = Ok bs /\ map b_text bs = [B "hi "; B "nostr:" ++ bob; B ", see "; B "https://a.b/c?d=e"; B "."] /\ map b_start bs = [0; 3; 72; 78; 95] /\
  not_glued (B "hi nostr:").
Proof.
  eexists. split; [vm_compute; reflexivity|]. split; [reflexivity|]. split; [reflexivity|]. intros a w b W E. exfalso. symmetry in E. change (B "hi nostr:") with (B "hi nostr" ++ ":"%char :: []) in E. rewrite app_assoc in E. apply one_colon in E; [|apply no_colon_b; reflexivity|intros []]. apply (f_equal (@rev _)) in E. rewrite rev_app_distr in E. destruct W as [<-|[<-|[<-|[<-|[]]]]]; discriminate.
Qed.
(** Codes of notes and of secret keys are left in the text. *)
Theorem C73_note_ignored_refuted : exists code p bs, to_pointer code = Ok p /\ parse_blocks demo_host (B "nostr:" ++ code) = Ok bs /\ Forall (fun b => b_pointer b = None) bs.
Proof. exists (or_empty (encode_note (hex_encode (repeat "a"%char 32)))). eexists. eexists. split; [vm_compute; reflexivity|]. split; [vm_compute; reflexivity|]. repeat constructor. Qed.

Print Assumptions C73_lossless.
Print Assumptions C73_truthful.
Print Assumptions C73_no_crash_partial.
Print Assumptions C73_crash_refuted.
Print Assumptions C73_bad_code_refuted.
Print Assumptions C73_found.
Print Assumptions C73_note_ignored_refuted.

(** ** Where an address ends, read by characters rather than by bytes *)
Definition word_cp (c : N) : bool := ((48 <=? c) && (c <=? 57) || (65 <=? c) && (c <=? 90) || (97 <=? c) && (c <=? 122) || (c =? 95))%N%bool.
Definition last_cp (r : list N) : bool := match r with [] => true | d :: _ => (d =? 32)%N || (d =? 10)%N end.
(** An address goes on up to a newline (10), a comma (44) or a space (32), or a character that is no word character and the last before a space, a newline or the end. *)
Fixpoint address (cps : list N) : list N :=
  match cps with
  | [] => []
  | c :: r => if (c =? 10)%N || (c =? 44)%N || (c =? 32)%N || (negb (word_cp c) && last_cp r) then [] else c :: address r
  end.
Lemma utf8_long cp : scalar cp -> (0x80 <= cp)%N -> exists h t, utf8 cp = byte_of h :: t /\ (0xC2 <= h < 0xF5)%N.
Proof.
  intros SC L. unfold utf8. destruct (N.ltb_spec cp 0x80); [lia|]. destruct (N.ltb_spec cp 0x800); [|destruct (N.ltb_spec cp 0x10000)]; eexists; eexists; (split; [reflexivity|]).
  - split; [apply N.le_trans with (0xC0 + 2)%N; [lia|apply N.add_le_mono_l, N.div_le_lower_bound; lia]|]. assert (cp / 64 < 32)%N by (apply N.div_lt_upper_bound; lia). lia.
  - assert (cp / 4096 < 16)%N by (apply N.div_lt_upper_bound; lia). lia.
  - assert (cp / 262144 < 5)%N by (apply N.div_lt_upper_bound; [lia|]; destruct SC; lia). lia.
Qed.
Lemma rune_len_utf8 cp r : scalar cp -> rune_len (utf8 cp ++ r) = length (utf8 cp).
Proof.
  intro SC. unfold utf8. destruct (N.ltb_spec cp 0x80) as [L|L].
  - cbn [app length]. unfold rune_len. destruct r as [|a r]; [reflexivity|]. rewrite !within_false by lia. cbn [andb]. destruct r as [|b r]; [reflexivity|]. destruct r; reflexivity.
  - assert (M : forall x, (x mod 64 < 64)%N) by (intro; apply N.mod_lt; lia).
    destruct (N.ltb_spec cp 0x800) as [L2|L2]; [|destruct (N.ltb_spec cp 0x10000) as [L3|L3]]; cbn [app length rune_len].
    + assert (2 <= cp / 64)%N by (apply N.div_le_lower_bound; lia). assert (cp / 64 < 32)%N by (apply N.div_lt_upper_bound; lia). pose proof (M cp). rewrite !within_true by lia. reflexivity.
    + assert (C1 : (cp / 4096 < 16)%N) by (apply N.div_lt_upper_bound; lia). pose proof (M cp). pose proof (M (cp / 64)%N).
      rewrite (within_false 0xC2 0xDF) by lia. cbn [andb]. rewrite (within_true 0xE0 0xEF) by lia. rewrite (within_true 0x80 0xBF (0x80 + cp mod 64)) by lia.
      rewrite !val_byte_of by lia. assert (D : (cp / 64 = 64 * (cp / 4096) + (cp / 64) mod 64)%N). { change 4096%N with (64 * 64)%N. rewrite <- N.div_div by lia. apply N.div_mod'. }
      assert (E64 : (cp / 64 * 64 <= cp < cp / 64 * 64 + 64)%N) by (pose proof (N.div_mod' cp 64); lia).
      rewrite within_true; [reflexivity|lia| |].
      * destruct (N.eqb_spec (0xE0 + cp / 4096) 0xE0); lia.
      * destruct (N.eqb_spec (0xE0 + cp / 4096) 0xED); [|lia]. destruct SC; lia.
    + assert (C1 : (cp / 262144 < 5)%N) by (apply N.div_lt_upper_bound; [lia|]; destruct SC; lia). pose proof (M cp). pose proof (M (cp / 64)%N). pose proof (M (cp / 4096)%N).
      rewrite (within_false 0xC2 0xDF) by lia. cbn [andb]. rewrite (within_false 0xE0 0xEF) by lia. cbn [andb]. rewrite (within_true 0xF0 0xF4) by lia. rewrite !(within_true 0x80 0xBF) by lia.
      rewrite !val_byte_of by lia. assert (D : (cp / 4096 = 64 * (cp / 262144) + (cp / 4096) mod 64)%N). { change 262144%N with (4096 * 64)%N. rewrite <- N.div_div by lia. apply N.div_mod'. }
      assert (E64 : (cp / 4096 * 4096 <= cp < cp / 4096 * 4096 + 4096)%N) by (pose proof (N.div_mod' cp 4096); pose proof (N.mod_lt cp 4096); lia).
      rewrite within_true; [reflexivity|lia| |].
      * destruct (N.eqb_spec (0xF0 + cp / 262144) 0xF0); lia.
      * destruct (N.eqb_spec (0xF0 + cp / 262144) 0xF4); [|lia]. destruct SC; lia.
Qed.
Lemma head_byte cp k r : scalar cp -> (k < 128)%N -> match utf8 cp ++ r with c :: _ => ceqb c (byte_of k) = (cp =? k)%N | [] => False end.
Proof.
  intros SC K. destruct (N.ltb_spec cp 0x80) as [L|L].
  - unfold utf8. destruct (N.ltb_spec cp 0x80); [|lia]. cbn [app]. unfold ceqb. destruct (Ascii.eqb_spec (byte_of cp) (byte_of k)) as [E|N]; destruct (N.eqb_spec cp k) as [E2|N2]; auto.
    + apply (f_equal val) in E. rewrite !val_byte_of in E by lia. lia.
    + congruence.
  - destruct (utf8_long cp SC L) as (h & t & -> & H). cbn [app]. unfold ceqb. destruct (N.eqb_spec cp k); [lia|]. destruct (Ascii.eqb_spec (byte_of h) (byte_of k)) as [E|N]; [|reflexivity]. apply (f_equal val) in E. rewrite !val_byte_of in E by lia. lia.
Qed.
Lemma head_word cp r : scalar cp -> match utf8 cp ++ r with c :: _ => is_word c = word_cp cp | [] => False end.
Proof.
  intro SC. pose proof (head_byte cp 95 r SC ltac:(lia)) as U. destruct (N.ltb_spec cp 0x80) as [L|L].
  - unfold utf8 in *. destruct (N.ltb_spec cp 0x80); [|lia]. cbn [app] in *. unfold is_word, word_cp. change "_"%char with (byte_of 95). rewrite U. unfold within. rewrite val_byte_of by lia. reflexivity.
  - destruct (utf8_long cp SC L) as (h & t & E & H). rewrite E in *. cbn [app] in *. unfold is_word, word_cp. change "_"%char with (byte_of 95). rewrite U, !within_false by lia.
    destruct (N.leb_spec cp 57); [lia|]. destruct (N.leb_spec cp 90); [lia|]. destruct (N.leb_spec cp 122); [lia|]. rewrite !andb_false_r. reflexivity.
Qed.
Lemma stops_utf8 cps : Forall scalar cps -> stops (flat_map utf8 cps) = last_cp cps.
Proof.
  intros [|cp r SC F]; [reflexivity|]. cbn [flat_map last_cp]. pose proof (head_byte cp 32 (flat_map utf8 r) SC ltac:(lia)) as H1. pose proof (head_byte cp 10 (flat_map utf8 r) SC ltac:(lia)) as H2.
  unfold stops. destruct (utf8 cp ++ flat_map utf8 r); [contradiction|]. change " "%char with (byte_of 32). rewrite H1. unfold newline. rewrite H2. reflexivity.
Qed.
Lemma url_end_utf8 cps : Forall scalar cps -> forall fuel, length (flat_map utf8 cps) <= fuel -> url_end fuel (flat_map utf8 cps) = length (flat_map utf8 (address cps)).
Proof.
  induction 1 as [|cp r SC F IH]; intros fuel L; [destruct fuel; reflexivity|].
  pose proof (head_byte cp 10 (flat_map utf8 r) SC ltac:(lia)) as H1. pose proof (head_byte cp 44 (flat_map utf8 r) SC ltac:(lia)) as H2. pose proof (head_byte cp 32 (flat_map utf8 r) SC ltac:(lia)) as H3. pose proof (head_word cp (flat_map utf8 r) SC) as H4.
  pose proof (rune_len_utf8 cp (flat_map utf8 r) SC) as RL. pose proof (rune_len_bounds (utf8 cp ++ flat_map utf8 r)) as RB.
  assert (SK : skipn (rune_len (utf8 cp ++ flat_map utf8 r)) (utf8 cp ++ flat_map utf8 r) = flat_map utf8 r) by (apply skipn_len_app; exact RL).
  cbn [flat_map address] in *. remember (utf8 cp ++ flat_map utf8 r) as s eqn:ES. destruct s as [|c t]; [contradiction|]. specialize (RB ltac:(discriminate)).
  assert (LS : length (c :: t) = length (utf8 cp) + length (flat_map utf8 r)) by (rewrite ES, app_length; reflexivity).
  destruct fuel as [|f]; [cbn [length] in L; lia|]. cbn [url_end]. change ","%char with (byte_of 44). change " "%char with (byte_of 32). unfold newline. rewrite H1, H2, H3, H4, SK, (stops_utf8 r F).
  destruct ((cp =? 10)%N || (cp =? 44)%N || (cp =? 32)%N); [reflexivity|]. cbn [orb]. destruct (negb (word_cp cp) && last_cp r); [reflexivity|].
  rewrite IH by lia. rewrite RL. cbn [flat_map]. rewrite app_length. reflexivity.
Qed.
(** The first address of a text is found, and it ends where [address] says. [x], [y] and [z] are the two slashes and the first character of the name. *)
Theorem C73_url_found url_host a w x y z cps bs : ~ In ":"%char a -> In w schemes -> Forall scalar cps ->
  let t := w ++ ":"%char :: x :: y :: z :: flat_map utf8 (address cps) in dotted (url_host t) = true ->
  cps <> [] -> parse_blocks url_host (a ++ w ++ ":"%char :: x :: y :: z :: flat_map utf8 cps) = Ok bs ->
  exists rest, bs = (match a with [] => [] | _ => [mkBlock a 0 None] end) ++ mkBlock t (length a) (Some (BUrl t)) :: rest.
Proof.
  cbv zeta. intros NA W F D NE H. set (tail := flat_map utf8 cps) in *. set (s := a ++ w ++ ":"%char :: x :: y :: z :: tail) in *. set (u := length a + length w).
  assert (NW : ~ In ":"%char w) by (destruct W as [<-|[<-|[<-|[<-|[]]]]]; apply no_colon_b; reflexivity).
  assert (LT : 1 <= length tail). { unfold tail. destruct cps as [|cp r]; [congruence|]. inversion F; subst. cbn [flat_map]. rewrite app_length. pose proof (rune_len_utf8 cp [] ltac:(assumption)) as RL. rewrite app_nil_r in RL. rewrite <- RL. pose proof (rune_len_bounds (utf8 cp)) as RB. destruct (utf8 cp) eqn:E; [|specialize (RB ltac:(discriminate)); lia]. exfalso. unfold utf8 in E. destruct (cp <? 0x80)%N; [discriminate|]. destruct (cp <? 0x800)%N; [discriminate|]. destruct (cp <? 0x10000)%N; discriminate. }
  assert (LS : length s = u + 4 + length tail). { unfold s, u. rewrite !app_length. cbn [length]. lia. }
  assert (S1 : s = (a ++ w) ++ ":"%char :: x :: y :: z :: tail) by (unfold s; rewrite <- app_assoc; reflexivity).
  unfold parse_blocks in H. cbn [parse_loop] in H. destruct (Nat.ltb_spec 0 (length s)); [|lia]. cbn [skipn] in H.
  assert (IC : index_colon s = Some u). { rewrite S1, index_colon_app. { rewrite app_length. reflexivity. } intro I. apply in_app_or in I. tauto. }
  rewrite IC, Nat.add_0_r in H. cbv zeta in H.
  assert (SK : forall k v, length v = k -> w = v \/ (exists p, w = p ++ v) -> skipn (u - k) s = v ++ ":"%char :: x :: y :: z :: tail).
  { intros k v LV WV. assert (X : exists p, w = p ++ v) by (destruct WV as [->|X]; [exists []; reflexivity|exact X]). destruct X as (p & ->). unfold s. rewrite <- !app_assoc, app_assoc. apply skipn_len_app. unfold u. rewrite !app_length. lia. }
  assert (EN : forall v, (exists p, w = p ++ v) -> ends_at s u v = true).
  { intros v X. unfold ends_at. apply andb_true_intro. split; [apply Nat.leb_le; destruct X as (p & ->); unfold u; rewrite app_length; lia|]. rewrite (SK (length v) v eq_refl (or_intror X)). rewrite firstn_app, Nat.sub_diag, firstn_all, app_nil_r. apply seqb_refl. }
  assert (AT : forall k, k < length w -> nth (u - S k) s " "%char = nth (length w - S k) w " "%char).
  { intros k LK. unfold s. rewrite app_nth2 by (unfold u; lia). rewrite app_nth1 by (unfold u; lia). f_equal. unfold u. lia. }
  assert (NO : forall v k, k < length v -> k < length w -> nth (length v - S k) v " "%char <> nth (length w - S k) w " "%char -> ends_at s u v = false).
  { intros v k KV KW DV. destruct (ends_at s u v) eqn:E; [|reflexivity]. exfalso. apply DV. apply andb_prop in E as [E1 E2]. apply Nat.leb_le in E1. apply seqb_eq in E2. rewrite <- AT by exact KW. rewrite <- E2 at 2.
    assert (NF : forall (n m : nat) (l : str), n < m -> nth n (firstn m l) " "%char = nth n l " "%char). { clear. intros n m l. revert n m. induction l as [|c l IH]; intros n m L; [rewrite firstn_nil; reflexivity|]. destruct m; [lia|]. destruct n; [reflexivity|]. cbn. apply IH. lia. }
    assert (NS : forall (n m : nat) (l : str), nth n (skipn m l) " "%char = nth (m + n) l " "%char). { clear. intros n m. induction m as [|m IH]; intro l; [reflexivity|]. destruct l; [destruct n; reflexivity|]. cbn. apply IH. }
    rewrite NF by lia. rewrite NS. f_equal. lia. }
  assert (NN : ends_at s u (B "nostr") = false) by (apply (NO _ 0); destruct W as [<-|[<-|[<-|[<-|[]]]]]; cbn; (lia || discriminate)).
  rewrite NN in H. cbn [andb] in H. assert (U4 : Nat.ltb (u + 4) (length s) = true) by (apply Nat.ltb_lt; lia). rewrite U4, !andb_true_r in H.
  set (to := u + 4 + url_end (length s) (skipn (u + 4) s)) in *.
  assert (K4 : skipn (u + 4) s = tail). { rewrite S1. change (":"%char :: x :: y :: z :: tail) with ([":"%char; x; y; z] ++ tail). rewrite app_assoc. apply skipn_len_app. rewrite !app_length. reflexivity. }
  assert (TO : to = u + 4 + length (flat_map utf8 (address cps))). { unfold to. rewrite K4. unfold tail. rewrite url_end_utf8; [reflexivity|exact F|]. fold tail. lia. }
  assert (PRE : exists q, tail = flat_map utf8 (address cps) ++ q). { unfold tail. clear. induction cps as [|c r IH]; [exists []; reflexivity|]. cbn [address]. destruct (_ || _); [eexists; reflexivity|]. destruct IH as (q & IH). exists q. cbn [flat_map]. rewrite IH at 1. apply app_assoc. }
  destruct PRE as (q & PRE). assert (LA : length tail = length (flat_map utf8 (address cps)) + length q) by (rewrite PRE at 1; apply app_length).
  set (t := w ++ ":"%char :: x :: y :: z :: flat_map utf8 (address cps)) in *.
  assert (ST : slice s (u - length w) to = Ok t). { rewrite slice_ok by (unfold u in *; lia). rewrite (SK (length w) w eq_refl (or_introl eq_refl)). f_equal. unfold t. rewrite PRE. replace (to - (u - length w)) with (length t + 0) by (rewrite TO; unfold t, u; rewrite app_length; cbn [length]; lia).
    change (w ++ ":"%char :: x :: y :: z :: flat_map utf8 (address cps) ++ q) with (w ++ (":"%char :: x :: y :: z :: flat_map utf8 (address cps)) ++ q). rewrite app_assoc. fold t. rewrite firstn_app_2. cbn [firstn]. rewrite app_nil_r. reflexivity. }
  assert (FIN : emit s 0 (u - length w) to (BUrl t) (parse_loop url_host (length s) s to to) = Ok bs -> exists rest, bs = match a with [] => [] | _ :: _ => [mkBlock a 0 None] end ++ mkBlock t (length a) (Some (BUrl t)) :: rest).
  { intro HE. unfold emit in HE. rewrite ST in HE. replace (u - length w) with (length a) in HE by (unfold u; lia). destruct (parse_loop url_host (length s) s to to) as [rest| |]; cbn [obind] in HE; [| |].
    - exists rest. destruct a as [|c a']; [cbn in HE; injection HE as <-; reflexivity|]. cbn [Nat.eqb length] in HE. rewrite slice_ok in HE by (rewrite ?LS; unfold u; cbn [length]; lia). cbn [obind skipn] in HE. rewrite Nat.sub_0_r in HE. unfold s in HE. change (S (length a')) with (length (c :: a')) in HE. rewrite <- (Nat.add_0_r (length (c :: a'))), firstn_app_2 in HE. cbn [firstn] in HE. rewrite app_nil_r, Nat.add_0_r in HE. injection HE as <-. reflexivity.
    - exfalso. destruct (Nat.eqb 0 (length a)); [discriminate|]. destruct (slice s 0 (length a)); discriminate.
    - exfalso. destruct (Nat.eqb 0 (length a)); [discriminate|]. destruct (slice s 0 (length a)); discriminate. }
  destruct W as [<-|[<-|[<-|[<-|[]]]]].
  - rewrite (EN (B "http")) in H by (exists []; reflexivity). rewrite orb_true_r in H. rewrite (AT 0) in H by (cbn; lia). change (ceqb (nth (length (B "http") - 1) (B "http") " "%char) "s"%char) with false in H. cbv iota in H. change (u - 4) with (u - length (B "http")) in H. rewrite ST in H. cbn [obind] in H. rewrite D in H. exact (FIN H).
  - rewrite (EN (B "https")) in H by (exists []; reflexivity). cbn [orb] in H. rewrite (AT 0) in H by (cbn; lia). change (ceqb (nth (length (B "https") - 1) (B "https") " "%char) "s"%char) with true in H. cbv iota in H. change (u - 5) with (u - length (B "https")) in H. rewrite ST in H. cbn [obind] in H. rewrite D in H. exact (FIN H).
  - rewrite (NO (B "https") 1), (NO (B "http") 0) in H by (cbn; (lia || discriminate)). cbn [orb] in H. rewrite (EN (B "ws")), orb_true_r in H by (exists []; reflexivity). rewrite (AT 1) in H by (cbn; lia). change (ceqb (nth (length (B "ws") - 2) (B "ws") " "%char) "s"%char) with false in H. cbv iota in H. change (u - 2) with (u - length (B "ws")) in H. rewrite ST in H. cbn [obind] in H. rewrite D in H. exact (FIN H).
  - rewrite (NO (B "https") 1), (NO (B "http") 0) in H by (cbn; (lia || discriminate)). cbn [orb] in H. rewrite (EN (B "wss")) in H by (exists []; reflexivity). cbn [orb] in H. rewrite (AT 1) in H by (cbn; lia). change (ceqb (nth (length (B "wss") - 2) (B "wss") " "%char) "s"%char) with true in H. cbv iota in H. change (u - 3) with (u - length (B "wss")) in H. rewrite ST in H. cbn [obind] in H. rewrite D in H. exact (FIN H).
Qed.
(** "é" inside an address and "…" (0x2026) after it. *)
Example C73_url_found_example : address [46; 0xE9; 44; 97]%N = [46; 0xE9]%N /\ address [46; 98; 0x2026; 10; 97]%N = [46; 98]%N /\ address [46; 98; 0x5803; 99; 46; 32]%N = [46; 98; 0x5803; 99]%N /\
  parse_blocks demo_host (B "at https://a" ++ flat_map utf8 [46; 98; 47; 0x5803; 99; 0x2026; 10; 97]%N) = Ok [mkBlock (B "at ") 0 None; mkBlock (B "https://a" ++ flat_map utf8 [46; 98; 47; 0x5803; 99]%N) 3 (Some (BUrl (B "https://a" ++ flat_map utf8 [46; 98; 47; 0x5803; 99]%N))); mkBlock (flat_map utf8 [0x2026; 10; 97]%N) 19 None].
Proof. vm_compute. repeat split. Qed.

Print Assumptions C73_url_found.
