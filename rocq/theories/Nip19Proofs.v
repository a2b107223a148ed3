(** Proofs about the NIP-19 codec and the pointers. *)
From Verif Require Import Base EventModel TagsModel FilterModel Bech32Model Bech32Proofs Nip19Model.
Local Open Scope N_scope.

(** ** Bytes to text and back *)
Lemma bytes_nums s : bytes_of (nums_of s) = s.
Proof. unfold bytes_of, nums_of. rewrite map_map. rewrite <- (map_id s) at 2. apply map_ext. intro; apply byte_of_val. Qed.
Lemma nums_lt s : Forall (fun v => v < 256) (nums_of s).
Proof. apply Forall_map, Forall_forall. intros c _. apply val_lt. Qed.

Definition plain_prefix (p : str) : Prop := p <> [] /\ printable p /\ map lower p = p.

(** what nip19_decode does with the bytes of a code *)
Definition read_bytes (prefix data : str) : outcome (str * code) :=
  if seqb prefix (B "npub") || seqb prefix (B "nsec") || seqb prefix (B "note") then
    if negb (Nat.eqb (length data) 32) then Err else Ok (prefix, KHex (hex_encode data))
  else if seqb prefix (B "nprofile") then
    obind (tlv_loop (length data) profile_entry data (mkProfile [] None)) (fun p =>
      if empty (pp_pubkey p) then Err else Ok (prefix, KPtr (PProfile p)))
  else if seqb prefix (B "nevent") then
    obind (tlv_loop (length data) event_entry data (mkEventPtr [] None [] 0)) (fun p =>
      if empty (ep_id p) then Err else Ok (prefix, KPtr (PEvent p)))
  else if seqb prefix (B "naddr") then
    obind (tlv_loop (length data) entity_entry data (mkEntity [] 0 [] None)) (fun p =>
      if Z.eqb (en_kind p) 0 || empty (en_identifier p) || empty (en_pubkey p) then Err else Ok (prefix, KPtr (PEntity p)))
  else Err.

Lemma decode_is_read s : nip19_decode s = obind (decode s) (fun hd => let '(p, b5) := hd in obind (convert_bits b5 5 8 false) (fun n => read_bytes p (bytes_of n))).
Proof. reflexivity. Qed.

Lemma to_code_decode prefix data : plain_prefix prefix -> exists t, to_code prefix data = Ok t /\ nip19_decode t = read_bytes prefix data.
Proof.
  intros (N & P & L). destruct (regroup_back (nums_of data) (nums_lt data)) as (out & E1 & F & E2).
  destruct (encode_decode prefix out N P F) as (t & T1 & T2).
  exists t. split.
  - unfold to_code. rewrite E1. exact T1.
  - rewrite decode_is_read, T2. cbn [obind]. rewrite E2. cbn [obind]. rewrite bytes_nums, L. reflexivity.
Qed.

Lemma plain (p : str) : negb (empty p) && forallb (fun c => (33 <=? val c) && (val c <=? 126) && ceqb (lower c) c) p = true -> plain_prefix p.
Proof.
  intro H. apply andb_true_iff in H as [N H]. rewrite forallb_forall in H.
  split; [destruct p; [discriminate|discriminate]|]. split.
  - apply Forall_forall. intros c Hc. specialize (H c Hc). rewrite !andb_true_iff in H. destruct H as [[A1 A2] _].
    apply N.leb_le in A1, A2. split; assumption.
  - rewrite <- (map_id p) at 2. apply map_ext_in. intros c Hc. specialize (H c Hc). rewrite !andb_true_iff in H. destruct H as [_ A].
    apply Ascii.eqb_eq in A. exact A.
Qed.

(** ** The entry stream *)
Definition entry := (N * str)%type.
Definition fits (e : entry) : Prop := fst e < 256 /\ (length (snd e) <= 255)%nat.
Definition stream (es : list entry) : str := flat_map (fun e => write_tlv (fst e) (snd e)) es.
Fixpoint run {A} (step : N -> str -> A -> outcome A) (es : list entry) (a : A) : outcome A :=
  match es with [] => Ok a | e :: r => obind (step (fst e) (snd e) a) (run step r) end.

Lemma read_write t v rest : t < 256 -> (length v <= 255)%nat -> read_tlv (write_tlv t v ++ rest) = Some (t, v).
Proof.
  intros Ht Hv. unfold write_tlv. cbn [app read_tlv]. rewrite (val_byte_of t Ht), (val_byte_of (N.of_nat (length v))) by lia.
  rewrite Nat2N.id. destruct (Nat.ltb_spec (length (v ++ rest)) (length v)) as [L|L]; [rewrite app_length in L; lia|].
  rewrite firstn_app, Nat.sub_diag, firstn_all, app_nil_r. reflexivity.
Qed.

Lemma tlv_loop_unfold {A} fuel (step : N -> str -> A -> outcome A) data a : tlv_loop fuel step data a =
  match read_tlv data with
  | None => Ok a
  | Some (t, v) => obind (step t v a) (fun a' => match fuel with O => Err | S f => tlv_loop f step (skipn (2 + length v) data) a' end)
  end.
Proof. destruct fuel; reflexivity. Qed.

Lemma stream_length es : (length es <= length (stream es))%nat.
Proof. induction es as [|e es IH]; [apply le_n|]. unfold stream in *. cbn. rewrite ?app_length. lia. Qed.

Lemma loop_run {A} (step : N -> str -> A -> outcome A) es : Forall fits es -> forall fuel a, (length es <= fuel)%nat ->
  tlv_loop fuel step (stream es) a = run step es a.
Proof.
  induction 1 as [|e es [F1 F2] Hes IH]; intros fuel a Hf; rewrite tlv_loop_unfold; [reflexivity|].
  change (stream (e :: es)) with (write_tlv (fst e) (snd e) ++ stream es).
  rewrite (read_write _ _ _ F1 F2). cbn [run]. destruct fuel as [|f]; [cbn in Hf; lia|].
  assert (K : skipn (2 + length (snd e)) (write_tlv (fst e) (snd e) ++ stream es) = stream es).
  { unfold write_tlv. cbn [app plus skipn]. rewrite skipn_app, skipn_all, Nat.sub_diag. reflexivity. }
  rewrite K. destruct (step (fst e) (snd e) a) as [a'| |]; cbn [obind]; [|reflexivity|reflexivity].
  apply IH. cbn in Hf. lia.
Qed.

Lemma run_app {A} (step : N -> str -> A -> outcome A) es fs a : run step (es ++ fs) a = obind (run step es a) (run step fs).
Proof. revert a. induction es as [|e es IH]; intro a; [reflexivity|]. cbn. destruct (step (fst e) (snd e) a); cbn; auto. Qed.

Definition relay_list (rs : list str) : list entry := map (fun r => (TLVRelay, r)) rs.
Lemma relay_stream rs : relay_entries rs = stream (relay_list rs).
Proof. unfold relay_entries, stream, relay_list. induction rs as [|r rs IH]; [reflexivity|]. cbn. do 3 f_equal. exact IH. Qed.
Lemma relays_fit rs : Forall (fun r => (length r <= 255)%nat) rs -> Forall fits (relay_list rs).
Proof. intro H. apply Forall_map. eapply Forall_impl; [|exact H]. intros r Hr. split; [reflexivity|exact Hr]. Qed.

Definition add_relays (o : option (list str)) (rs : list str) : option (list str) := fold_left snoc rs o.
Lemma add_relays_some l rs : add_relays (Some l) rs = Some (l ++ rs).
Proof. revert l. induction rs as [|r rs IH]; intro l; cbn; [rewrite app_nil_r; reflexivity|]. unfold add_relays in IH. rewrite IH, <- app_assoc. reflexivity. Qed.
(** decoded relays: nil when there is none *)
Definition some_relays (rs : list str) : option (list str) := match rs with [] => None | _ => Some rs end.
Lemma add_relays_none rs : add_relays None rs = some_relays rs.
Proof. destruct rs as [|r rs]; [reflexivity|]. cbn. apply add_relays_some. Qed.

Lemma run_profile_relays rs p : run profile_entry (relay_list rs) p = Ok (mkProfile (pp_pubkey p) (add_relays (pp_relays p) rs)).
Proof. revert p. induction rs as [|r rs IH]; intro p; [destruct p; reflexivity|]. cbn. rewrite IH. reflexivity. Qed.
Lemma run_event_relays rs p : run event_entry (relay_list rs) p = Ok (mkEventPtr (ep_id p) (add_relays (ep_relays p) rs) (ep_author p) (ep_kind p)).
Proof. revert p. induction rs as [|r rs IH]; intro p; [destruct p; reflexivity|]. cbn. rewrite IH. reflexivity. Qed.
Lemma run_entity_relays rs p : run entity_entry (relay_list rs) p = Ok (mkEntity (en_pubkey p) (en_kind p) (en_identifier p) (add_relays (en_relays p) rs)).
Proof. revert p. induction rs as [|r rs IH]; intro p; [destruct p; reflexivity|]. cbn. rewrite IH. reflexivity. Qed.

Lemma hex_not_empty b : length b = 32%nat -> empty (hex_encode b) = false.
Proof. destruct b; [discriminate|]. intros _. unfold hex_encode. reflexivity. Qed.

Lemma hex_prefix_decode s b : hex_decode s = Some b -> hex_prefix s = b.
Proof.
  revert b. induction s as [| a | a c s IH] using (fix go (s : str) : forall P : str -> Prop, P [] -> (forall a, P [a]) -> (forall a c r, P r -> P (a :: c :: r)) -> P s :=
    fun P H0 H1 H2 => match s with [] => H0 | [a] => H1 a | a :: c :: r => H2 a c r (go r P H0 H1 H2) end); intros b; cbn.
  - congruence.
  - congruence.
  - destruct (hex_val a), (hex_val c); try discriminate. destruct (hex_decode s); [|discriminate].
    intro E. injection E as <-. f_equal. apply IH. reflexivity.
Qed.

Lemma put_be32_be32 z : (0 <= z < 4294967296)%Z -> be32 (put_be32 z) = Ok z.
Proof.
  intro H. unfold put_be32. set (n := Z.to_N (z mod 4294967296)).
  assert (Hn : n < 4294967296) by (unfold n; rewrite Z.mod_small by lia; lia).
  assert (Ez : Z.of_N n = z) by (unfold n; rewrite Z.mod_small by lia; lia).
  cbn [be32]. rewrite !val_byte_of; try (apply N.mod_lt; lia); [|apply N.div_lt_upper_bound; lia].
  f_equal. rewrite <- Ez. f_equal.
  assert (E1 := N.div_mod n 256). assert (E2 := N.div_mod (n / 256) 256). assert (E3 := N.div_mod (n / 65536) 256).
  replace (n / 65536) with (n / 256 / 256) in * by (rewrite N.div_div by lia; reflexivity).
  replace (n / 16777216) with (n / 256 / 256 / 256) by (rewrite !N.div_div by lia; reflexivity).
  lia.
Qed.
Lemma put_be32_length z : length (put_be32 z) = 4%nat.
Proof. reflexivity. Qed.

(** ** The three codes *)
Lemma code_hex_round prefix s b : In prefix [B "nsec"; B "npub"; B "note"] -> hex_decode s = Some b -> length b = 32%nat ->
  exists t, encode_hex prefix s = Ok t /\ nip19_decode t = Ok (prefix, KHex (hex_encode b)).
Proof.
  intros Hp Hs Hb. assert (P : plain_prefix prefix) by (destruct Hp as [<-|[<-|[<-|[]]]]; apply plain; reflexivity).
  destruct (to_code_decode prefix b P) as (t & T1 & T2). exists t. split.
  - unfold encode_hex, from_hex. rewrite Hs. exact T1.
  - rewrite T2. unfold read_bytes. rewrite Hb. destruct Hp as [<-|[<-|[<-|[]]]]; reflexivity.
Qed.

Lemma code_profile_round pk b rs : hex_decode pk = Some b -> length b = 32%nat -> Forall (fun r => (length r <= 255)%nat) rs ->
  exists t, encode_profile pk rs = Ok t /\ nip19_decode t = Ok (B "nprofile", KPtr (PProfile (mkProfile (hex_encode b) (some_relays rs)))).
Proof.
  intros Hs Hb Hr.
  destruct (to_code_decode (B "nprofile") (write_tlv TLVDefault b ++ relay_entries rs)) as (t & T1 & T2); [apply plain; reflexivity|].
  exists t. split; [unfold encode_profile, from_hex; rewrite Hs; exact T1|].
  rewrite T2. set (data := write_tlv TLVDefault b ++ relay_entries rs).
  assert (E : data = stream ((TLVDefault, b) :: relay_list rs)) by (unfold data; rewrite relay_stream; reflexivity).
  assert (L : tlv_loop (length data) profile_entry data (mkProfile [] None) = Ok (mkProfile (hex_encode b) (some_relays rs))).
  { rewrite E at 2. rewrite loop_run.
    - cbn [run fst snd]. unfold profile_entry at 1. cbn [N.eqb TLVDefault]. rewrite Hb. cbn [Nat.eqb negb obind].
      rewrite run_profile_relays. cbn [pp_pubkey pp_relays]. rewrite add_relays_none. reflexivity.
    - constructor; [split; [reflexivity|cbn; lia]|apply relays_fit, Hr].
    - rewrite E. apply stream_length. }
  unfold read_bytes. cbn [seqb B]. replace (seqb (B "nprofile") _ || _ || _) with false by reflexivity.
  replace (seqb (B "nprofile") (B "nprofile")) with true by reflexivity. rewrite L. cbn [obind pp_pubkey]. rewrite hex_not_empty by exact Hb. reflexivity.
Qed.

Lemma code_event_round id b rs author ab : hex_decode id = Some b -> length b = 32%nat -> Forall (fun r => (length r <= 255)%nat) rs ->
  hex_prefix author = ab -> length ab = 32%nat \/ ab = [] ->
  exists t, encode_event_ptr id rs author = Ok t /\ nip19_decode t = Ok (B "nevent", KPtr (PEvent (mkEventPtr (hex_encode b) (some_relays rs) (hex_encode ab) 0))).
Proof.
  intros Hs Hb Hr Ha Hab.
  set (tailb := if Nat.eqb (length (hex_prefix author)) 32 then write_tlv TLVAuthor (hex_prefix author) else []).
  destruct (to_code_decode (B "nevent") (write_tlv TLVDefault b ++ relay_entries rs ++ tailb)) as (t & T1 & T2); [apply plain; reflexivity|].
  exists t. split.
  { unfold encode_event_ptr, from_hex. rewrite Hs. cbn [obind]. rewrite Hb. cbn [Nat.eqb negb]. exact T1. }
  rewrite T2. set (data := write_tlv TLVDefault b ++ relay_entries rs ++ tailb).
  assert (exists es, tailb = stream es /\ Forall fits es /\ forall p, ep_author p = [] -> run event_entry es p = Ok (mkEventPtr (ep_id p) (ep_relays p) (hex_encode ab) (ep_kind p))) as (es & Et & Ef & Er).
  { unfold tailb. rewrite Ha. destruct Hab as [Hab| ->].
    - rewrite Hab. cbn [Nat.eqb]. exists [(TLVAuthor, ab)]. split; [unfold stream; cbn [flat_map fst snd]; rewrite app_nil_r; reflexivity|]. split.
      + constructor; [split; [reflexivity|cbn; lia]|constructor].
      + intros p _. cbn [run fst snd]. unfold event_entry. cbn [N.eqb TLVDefault TLVAuthor TLVRelay Pos.eqb]. rewrite Hab. reflexivity.
    - exists []. split; [reflexivity|]. split; [constructor|]. intros [i r a k] H. cbn in H |- *. subst. reflexivity. }
  assert (E : data = stream ((TLVDefault, b) :: relay_list rs ++ es)).
  { unfold data. rewrite relay_stream, Et. unfold stream. cbn [flat_map fst snd]. rewrite flat_map_app. reflexivity. }
  assert (L : tlv_loop (length data) event_entry data (mkEventPtr [] None [] 0) = Ok (mkEventPtr (hex_encode b) (some_relays rs) (hex_encode ab) 0)).
  { rewrite E at 2. rewrite loop_run.
    - cbn [run fst snd]. unfold event_entry at 1. cbn [N.eqb TLVDefault]. rewrite Hb. cbn [Nat.eqb negb obind].
      rewrite run_app, run_event_relays. cbn [obind]. rewrite Er by reflexivity. cbn. rewrite add_relays_none. reflexivity.
    - constructor; [split; [reflexivity|cbn; lia]|]. apply Forall_app. split; [apply relays_fit, Hr|exact Ef].
    - rewrite E. apply stream_length. }
  unfold read_bytes. replace (seqb (B "nevent") _ || _ || _) with false by reflexivity.
  replace (seqb (B "nevent") (B "nprofile")) with false by reflexivity.
  replace (seqb (B "nevent") (B "nevent")) with true by reflexivity. rewrite L. cbn [obind ep_id]. rewrite hex_not_empty by exact Hb. reflexivity.
Qed.

Lemma code_entity_round pk b kind ident rs : hex_decode pk = Some b -> length b = 32%nat -> Forall (fun r => (length r <= 255)%nat) rs ->
  (0 < kind < 4294967296)%Z -> ident <> [] -> (length ident <= 255)%nat ->
  exists t, encode_entity pk kind ident rs = Ok t /\ nip19_decode t = Ok (B "naddr", KPtr (PEntity (mkEntity (hex_encode b) kind ident (some_relays rs)))).
Proof.
  intros Hs Hb Hr Hk Hi Hl.
  destruct (to_code_decode (B "naddr") (write_tlv TLVDefault ident ++ relay_entries rs ++ write_tlv TLVAuthor b ++ write_tlv TLVKind (put_be32 kind))) as (t & T1 & T2); [apply plain; reflexivity|].
  exists t. split; [unfold encode_entity, from_hex; rewrite Hs; exact T1|].
  rewrite T2. set (data := write_tlv TLVDefault ident ++ _).
  assert (E : data = stream ((TLVDefault, ident) :: relay_list rs ++ [(TLVAuthor, b); (TLVKind, put_be32 kind)])).
  { unfold data. rewrite relay_stream. unfold stream. cbn [flat_map fst snd]. rewrite flat_map_app. cbn [flat_map fst snd]. rewrite app_nil_r. reflexivity. }
  assert (L : tlv_loop (length data) entity_entry data (mkEntity [] 0 [] None) = Ok (mkEntity (hex_encode b) kind ident (some_relays rs))).
  { rewrite E at 2. rewrite loop_run.
    - cbn [run fst snd]. unfold entity_entry at 1. cbn [N.eqb TLVDefault obind].
      rewrite run_app, run_entity_relays. cbn [obind run fst snd]. unfold entity_entry at 1. cbn [N.eqb TLVDefault TLVAuthor TLVRelay Pos.eqb]. rewrite Hb.
      cbn [Nat.eqb negb obind]. unfold entity_entry at 1. cbn [N.eqb TLVDefault TLVAuthor TLVRelay TLVKind Pos.eqb]. rewrite put_be32_be32 by lia.
      cbn [obind en_pubkey en_kind en_identifier en_relays]. rewrite add_relays_none. reflexivity.
    - constructor; [split; [reflexivity|cbn [snd]; lia]|]. apply Forall_app. split; [apply relays_fit, Hr|].
      constructor; [split; [reflexivity|cbn [snd]; lia]|constructor; [split; [reflexivity|cbn [snd]; rewrite put_be32_length; lia]|constructor]].
    - rewrite E. apply stream_length. }
  unfold read_bytes. replace (seqb (B "naddr") _ || _ || _) with false by reflexivity.
  replace (seqb (B "naddr") (B "nprofile")) with false by reflexivity.
  replace (seqb (B "naddr") (B "nevent")) with false by reflexivity.
  replace (seqb (B "naddr") (B "naddr")) with true by reflexivity. rewrite L. cbn [obind en_kind en_identifier en_pubkey]. rewrite hex_not_empty by exact Hb.
  destruct (Z.eqb_spec kind 0); [lia|]. destruct ident; [congruence|]. reflexivity.
Qed.

(** ** Every input *)
Lemma loop_inv {A} (P : A -> Prop) (step : N -> str -> A -> outcome A) : (forall t v a a', P a -> step t v a = Ok a' -> P a') ->
  forall fuel data a r, P a -> tlv_loop fuel step data a = Ok r -> P r.
Proof.
  intro Hs. induction fuel as [|f IH]; intros data a r Ha; rewrite tlv_loop_unfold; destruct (read_tlv data) as [[t v]|].
  - destruct (step t v a); cbn; discriminate.
  - intro E. injection E as <-. exact Ha.
  - destruct (step t v a) as [a'| |] eqn:E; cbn [obind]; [|discriminate|discriminate]. apply IH. exact (Hs _ _ _ _ Ha E).
  - intro E. injection E as <-. exact Ha.
Qed.
Lemma loop_no_panic {A} (step : N -> str -> A -> outcome A) : (forall t v a, step t v a <> Panic) ->
  forall fuel data a, tlv_loop fuel step data a <> Panic.
Proof.
  intro Hs. induction fuel as [|f IH]; intros data a; rewrite tlv_loop_unfold; destruct (read_tlv data) as [[t v]|]; try discriminate;
    destruct (step t v a) as [a'| |] eqn:E; cbn [obind]; try discriminate; try (exfalso; exact (Hs _ _ _ E)). apply IH.
Qed.
(** the fuel is never what stops the loop *)
Lemma loop_fuel {A} (step : N -> str -> A -> outcome A) : forall f g data a, (length data <= f)%nat -> (length data <= g)%nat ->
  tlv_loop f step data a = tlv_loop g step data a.
Proof.
  induction f as [|f IH]; intros g data a Hf Hg; rewrite (tlv_loop_unfold g); rewrite tlv_loop_unfold.
  - destruct data; [reflexivity|cbn in Hf; lia].
  - destruct (read_tlv data) as [[t v]|] eqn:R; [|reflexivity]. destruct g as [|g].
    + destruct data; [discriminate|cbn in Hg; lia].
    + destruct (step t v a) as [a'| |]; cbn [obind]; try reflexivity. destruct data as [|x data]; [discriminate|].
      cbn [plus skipn length] in *. destruct data as [|y data]; [discriminate|]. cbn [length] in *.
      apply IH; rewrite skipn_length; lia.
Qed.

Definition hex32 (s : str) : Prop := length s = 64%nat /\ forallb is_lower_hex_char s = true.
Lemma hex32_encode b : length b = 32%nat -> hex32 (hex_encode b).
Proof. intro H. split; [rewrite hex_encode_length, H; reflexivity|apply hex_encode_lower]. Qed.

Definition is_kind32 (k : Z) : Prop := (0 <= k < 4294967296)%Z.
Lemma be32_range v k : be32 v = Ok k -> is_kind32 k.
Proof.
  destruct v as [|a [|b [|c [|d v]]]]; try discriminate. cbn. intro E. injection E as <-.
  assert (A := val_lt a). assert (A1 := val_lt b). assert (A2 := val_lt c). assert (A3 := val_lt d). unfold is_kind32. lia.
Qed.

Ltac steps := repeat match goal with
  | H : context [if ?b then _ else _] |- _ => destruct b eqn:?
  | H : Ok _ = Ok _ |- _ => injection H as H; subst
  | H : Err = Ok _ |- _ => discriminate H
  end.

Lemma len32 (v : str) : negb (Nat.eqb (length v) 32) = false -> length v = 32%nat.
Proof. intro H. apply negb_false_iff, Nat.eqb_eq in H. exact H. Qed.

Lemma profile_inv t v a a' : (pp_pubkey a = [] \/ hex32 (pp_pubkey a)) -> profile_entry t v a = Ok a' -> pp_pubkey a' = [] \/ hex32 (pp_pubkey a').
Proof. unfold profile_entry. intros H E. steps; cbn; auto. right. apply hex32_encode, len32. assumption. Qed.
Definition event_ok (a : event_pointer) : Prop := (ep_id a = [] \/ hex32 (ep_id a)) /\ (ep_author a = [] \/ hex32 (ep_author a)) /\ is_kind32 (ep_kind a).
Lemma event_inv t v a a' : event_ok a -> event_entry t v a = Ok a' -> event_ok a'.
Proof.
  unfold event_entry, event_ok. intros (H1 & H2 & H3) E. steps; cbn; repeat split; auto; try apply H3; try (right; apply hex32_encode, len32; assumption).
  all: destruct (be32 v) as [k| |] eqn:Ek; cbn in E; try discriminate; injection E as <-; cbn; auto; apply be32_range in Ek; unfold is_kind32 in Ek; cbn; lia.
Qed.
Definition entity_ok (a : entity_pointer) : Prop := (en_pubkey a = [] \/ hex32 (en_pubkey a)) /\ is_kind32 (en_kind a).
Lemma entity_inv t v a a' : entity_ok a -> entity_entry t v a = Ok a' -> entity_ok a'.
Proof.
  unfold entity_entry, entity_ok. intros (H1 & H3) E. steps; cbn; repeat split; auto; try apply H3; try (right; apply hex32_encode, len32; assumption).
  all: destruct (be32 v) as [k| |] eqn:Ek; cbn in E; try discriminate; injection E as <-; cbn; auto; apply be32_range in Ek; unfold is_kind32 in Ek; cbn; lia.
Qed.

Definition sound (prefix : str) (c : code) : Prop :=
  match c with
  | KHex h => In prefix [B "npub"; B "nsec"; B "note"] /\ hex32 h
  | KPtr (PProfile p) => prefix = B "nprofile" /\ hex32 (pp_pubkey p)
  | KPtr (PEvent p) => prefix = B "nevent" /\ hex32 (ep_id p) /\ (ep_author p = [] \/ hex32 (ep_author p)) /\ is_kind32 (ep_kind p)
  | KPtr (PEntity p) => prefix = B "naddr" /\ hex32 (en_pubkey p) /\ (0 < en_kind p < 4294967296)%Z /\ en_identifier p <> []
  end.

Lemma empty_true s : empty s = true <-> s = [].
Proof. destruct s; cbn; intuition congruence. Qed.

Lemma read_sound prefix data p c : read_bytes prefix data = Ok (p, c) -> p = prefix /\ sound p c.
Proof.
  unfold read_bytes.
  destruct (seqb_spec prefix (B "npub")) as [P1|P1]; [|destruct (seqb_spec prefix (B "nsec")) as [P2|P2]; [|destruct (seqb_spec prefix (B "note")) as [P3|P3]]]; cbn [orb].
  1-3: destruct (negb (Nat.eqb (length data) 32)) eqn:L; [discriminate|]; intro E; injection E as <- <-; apply len32 in L; split; [reflexivity|]; split; [cbn; auto|apply hex32_encode, L].
  destruct (seqb_spec prefix (B "nprofile")) as [P4|P4].
  { destruct (tlv_loop _ profile_entry data _) as [q| |] eqn:E; cbn [obind]; try discriminate.
    apply (loop_inv (fun a => pp_pubkey a = [] \/ hex32 (pp_pubkey a)) _ profile_inv) in E; [|left; reflexivity].
    destruct (empty (pp_pubkey q)) eqn:Q; [discriminate|]. intro G. injection G as <- <-. split; [reflexivity|]. split; [exact P4|].
    destruct E as [E|E]; [apply empty_true in E; congruence|exact E]. }
  destruct (seqb_spec prefix (B "nevent")) as [P5|P5].
  { destruct (tlv_loop _ event_entry data _) as [q| |] eqn:E; cbn [obind]; try discriminate.
    apply (loop_inv event_ok _ event_inv) in E; [|unfold event_ok, is_kind32; cbn; intuition lia].
    destruct (empty (ep_id q)) eqn:Q; [discriminate|]. intro G. injection G as <- <-. split; [reflexivity|]. split; [exact P5|].
    destruct E as ([E|E] & E2 & E3); [apply empty_true in E; congruence|]. repeat split; try apply E; try apply E3; exact E2. }
  destruct (seqb_spec prefix (B "naddr")) as [P6|P6]; [|discriminate].
  destruct (tlv_loop _ entity_entry data _) as [q| |] eqn:E; cbn [obind]; try discriminate.
  apply (loop_inv entity_ok _ entity_inv) in E; [|unfold entity_ok, is_kind32; cbn; intuition lia].
  destruct (Z.eqb_spec (en_kind q) 0) as [K|K]; [discriminate|]. destruct (empty (en_identifier q)) eqn:Q; [discriminate|]. destruct (empty (en_pubkey q)) eqn:Q2; [discriminate|].
  cbn [orb]. intro G. injection G as <- <-. split; [reflexivity|]. split; [exact P6|].
  destruct E as ([E|E] & E3); [apply empty_true in E; congruence|]. split; [exact E|]. split; [unfold is_kind32 in E3; lia|].
  intro N. apply empty_true in N. congruence.
Qed.

Lemma decode_sound s p c : nip19_decode s = Ok (p, c) -> sound p c.
Proof.
  rewrite decode_is_read. destruct (decode s) as [[h b5]| |]; cbn [obind]; try discriminate.
  destruct (convert_bits b5 5 8 false); cbn [obind]; try discriminate. intro E. apply read_sound in E. apply E.
Qed.

Lemma profile_no_panic t v a : profile_entry t v a <> Panic.
Proof. unfold profile_entry. repeat match goal with |- context [if ?b then _ else _] => destruct b end; discriminate. Qed.
Lemma event_no_panic t v a : event_entry t v a <> Panic.
Proof.
  unfold event_entry. destruct (t =? TLVDefault); [destruct (negb _); discriminate|]. destruct (t =? TLVRelay); [discriminate|].
  destruct (t =? TLVAuthor); [destruct (negb _); discriminate|]. destruct (t =? TLVKind); [|discriminate].
  destruct (negb (Nat.eqb (length v) 4)) eqn:E; [discriminate|]. apply negb_false_iff, Nat.eqb_eq in E.
  destruct v as [|x1 [|x2 [|x3 [|x4 v]]]]; cbn in E; try lia. cbn. discriminate.
Qed.

Lemma decode_no_panic s : decode s <> Panic.
Proof.
  intro E. assert (D : decode s = Err) by (apply decode_not_ok; intros; rewrite E; discriminate). congruence.
Qed.

Lemma read_no_panic prefix data : prefix <> B "naddr" -> read_bytes prefix data <> Panic.
Proof.
  intro N. unfold read_bytes. destruct (_ || _); [destruct (negb _); discriminate|].
  destruct (seqb prefix (B "nprofile")).
  { assert (Q := loop_no_panic profile_entry profile_no_panic (length data) data (mkProfile [] None)).
    destruct (tlv_loop _ profile_entry _ _); cbn [obind]; [destruct (empty _); discriminate|discriminate|congruence]. }
  destruct (seqb prefix (B "nevent")).
  { assert (Q := loop_no_panic event_entry event_no_panic (length data) data (mkEventPtr [] None [] 0)).
    destruct (tlv_loop _ event_entry _ _); cbn [obind]; [destruct (empty _); discriminate|discriminate|congruence]. }
  destruct (seqb_spec prefix (B "naddr")); [contradiction|discriminate].
Qed.
