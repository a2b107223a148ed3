(** Round trips of events and filters through the easyjson codec. *)
From Verif Require Import Base JsonSpec EventModel EventProofs TagsModel FilterModel FilterProofs JLexModel JLexProofs.
Local Open Scope nat_scope.

Definition opt_member (key s : str) : list (str * str) := match s with [] => [] | _ => [(key, jw_string s)] end.
Definition event_members (e : event) : list (str * str) :=
  [(B "kind", dec_Z (ev_kind e))] ++ opt_member (B "id") (ev_id e) ++ opt_member (B "pubkey") (ev_pubkey e) ++
  [(B "created_at", dec_Z (ev_created_at e)); (B "tags", jw_array (map jw_strings (ev_tags e))); (B "content", jw_string (ev_content e))] ++
  opt_member (B "sig") (ev_sig e).

Lemma tails_app a b : tails (a ++ b) = tails a ++ tails b.
Proof. unfold tails. apply flat_map_app. Qed.
Lemma tails_cons a b : tails (a :: b) = ","%char :: a ++ tails b.
Proof. reflexivity. Qed.

Lemma tails_opt key s : tails (map member_text (opt_member key s)) = jw_opt (","%char :: quote :: key ++ [quote; ":"%char]) s.
Proof.
  unfold opt_member, jw_opt. destruct s as [|c s]; [reflexivity|].
  cbn [map tails flat_map]. rewrite app_nil_r. unfold member_text. cbn [fst snd app].
  rewrite <- app_assoc. reflexivity.
Qed.

Lemma encode_event_object e : encode_event e = object_text (event_members e).
Proof.
  unfold object_text, event_members. cbn [app map]. rewrite comma_sep_cons.
  rewrite !map_app, !tails_app. cbn [map]. rewrite !tails_cons, !tails_opt. unfold member_text. cbn [fst snd].
  unfold encode_event. change (B "{") with ["{"%char]. cbn [app]. do 1 f_equal.
  change (B ",""id"":") with (","%char :: quote :: B "id" ++ [quote; ":"%char]).
  change (B ",""pubkey"":") with (","%char :: quote :: B "pubkey" ++ [quote; ":"%char]).
  change (B ",""sig"":") with (","%char :: quote :: B "sig" ++ [quote; ":"%char]).
  change (B """kind"":") with (quote :: B "kind" ++ [quote; ":"%char]).
  change (B ",""created_at"":") with (","%char :: quote :: B "created_at" ++ [quote; ":"%char]).
  change (B ",""tags"":") with (","%char :: quote :: B "tags" ++ [quote; ":"%char]).
  change (B ",""content"":") with (","%char :: quote :: B "content" ++ [quote; ":"%char]).
  change (B "}") with ["}"%char].
  rewrite ?app_nil_r. repeat (progress (rewrite <- ?app_assoc; cbn [app])). reflexivity.
Qed.

Definition int64 (z : Z) : Prop := (min_int64 <= z <= max_int64)%Z.
Definition text_event (e : event) : Prop :=
  utf8_text (ev_id e) /\ utf8_text (ev_pubkey e) /\ utf8_text (ev_content e) /\ utf8_text (ev_sig e) /\
  Forall (Forall utf8_text) (ev_tags e) /\ int64 (ev_created_at e) /\ int64 (ev_kind e).

Lemma enc_key k : forallb plain_char k = true -> enc_chars k k.
Proof. apply enc_plain. Qed.

Lemma chain_one {A} name (field : str -> lexer -> A -> A * lexer) a k t a1 :
  reads name (quote :: k ++ [quote]) k -> reads (fun x => field k x a) t a1 -> chain name field a [(k, t)] a1.
Proof. intros H1 H2. econstructor; [exact H1|exact H2|constructor]. Qed.

Lemma reads_ext {A} (f g : lexer -> A * lexer) t v : (forall l, f l = g l) -> reads g t v -> reads f t v.
Proof.
  intros E H pre sep first r Hs Hr. specialize (H pre sep first r Hs Hr). cbv zeta in *. rewrite !E. exact H.
Qed.

Section Fuel.
  Variable fuel : nat.
  Let ch := chain raw_field_name (event_field fuel).

  Lemma ch_kind e z : int64 z -> ch e [(B "kind", dec_Z z)] (mkEvent (ev_id e) (ev_pubkey e) (ev_created_at e) z (ev_tags e) (ev_content e) (ev_sig e)).
  Proof.
    intro H. apply chain_one; [eapply reads_raw_name, enc_key; vm_compute; reflexivity|].
    apply (reads_map lint (dec_Z z) z (fun z => mkEvent (ev_id e) (ev_pubkey e) (ev_created_at e) z (ev_tags e) (ev_content e) (ev_sig e))).
    apply reads_int, H.
  Qed.
  Lemma ch_created e z : int64 z -> ch e [(B "created_at", dec_Z z)] (mkEvent (ev_id e) (ev_pubkey e) z (ev_kind e) (ev_tags e) (ev_content e) (ev_sig e)).
  Proof.
    intro H. apply chain_one; [eapply reads_raw_name, enc_key; vm_compute; reflexivity|].
    apply (reads_map lint (dec_Z z) z (fun z => mkEvent (ev_id e) (ev_pubkey e) z (ev_kind e) (ev_tags e) (ev_content e) (ev_sig e))).
    apply reads_int, H.
  Qed.
  Lemma ch_tags e ts : Forall (Forall utf8_text) ts -> length ts < fuel -> (forall t, In t ts -> length t < fuel) ->
    ch e [(B "tags", jw_array (map jw_strings ts))] (mkEvent (ev_id e) (ev_pubkey e) (ev_created_at e) (ev_kind e) ts (ev_content e) (ev_sig e)).
  Proof.
    intros H Hf Ht. apply chain_one; [eapply reads_raw_name, enc_key; vm_compute; reflexivity|].
    apply (reads_map (array fuel (ltag fuel)) _ ts (fun ts => mkEvent (ev_id e) (ev_pubkey e) (ev_created_at e) (ev_kind e) ts (ev_content e) (ev_sig e))).
    apply reads_tags; assumption.
  Qed.
  Lemma ch_content e s : utf8_text s -> ch e [(B "content", jw_string s)] (mkEvent (ev_id e) (ev_pubkey e) (ev_created_at e) (ev_kind e) (ev_tags e) s (ev_sig e)).
  Proof.
    intro H. apply chain_one; [eapply reads_raw_name, enc_key; vm_compute; reflexivity|].
    apply (reads_map lstring _ s (fun s => mkEvent (ev_id e) (ev_pubkey e) (ev_created_at e) (ev_kind e) (ev_tags e) s (ev_sig e))).
    apply reads_string, jw_chars_enc, H.
  Qed.
  Lemma ch_id e s : utf8_text s -> (s = [] -> ev_id e = []) -> ch e (opt_member (B "id") s) (mkEvent s (ev_pubkey e) (ev_created_at e) (ev_kind e) (ev_tags e) (ev_content e) (ev_sig e)).
  Proof.
    intros H E. destruct s as [|c s]; [specialize (E eq_refl); destruct e; cbn in E; subst; constructor|].
    apply chain_one; [eapply reads_raw_name, enc_key; vm_compute; reflexivity|].
    apply (reads_map lstring _ (c :: s) (fun s => mkEvent s (ev_pubkey e) (ev_created_at e) (ev_kind e) (ev_tags e) (ev_content e) (ev_sig e))).
    apply reads_string, jw_chars_enc, H.
  Qed.
  Lemma ch_pubkey e s : utf8_text s -> (s = [] -> ev_pubkey e = []) -> ch e (opt_member (B "pubkey") s) (mkEvent (ev_id e) s (ev_created_at e) (ev_kind e) (ev_tags e) (ev_content e) (ev_sig e)).
  Proof.
    intros H E. destruct s as [|c s]; [specialize (E eq_refl); destruct e; cbn in E; subst; constructor|].
    apply chain_one; [eapply reads_raw_name, enc_key; vm_compute; reflexivity|].
    apply (reads_map lstring _ (c :: s) (fun s => mkEvent (ev_id e) s (ev_created_at e) (ev_kind e) (ev_tags e) (ev_content e) (ev_sig e))).
    apply reads_string, jw_chars_enc, H.
  Qed.
  Lemma ch_sig e s : utf8_text s -> (s = [] -> ev_sig e = []) -> ch e (opt_member (B "sig") s) (mkEvent (ev_id e) (ev_pubkey e) (ev_created_at e) (ev_kind e) (ev_tags e) (ev_content e) s).
  Proof.
    intros H E. destruct s as [|c s]; [specialize (E eq_refl); destruct e; cbn in E; subst; constructor|].
    apply chain_one; [eapply reads_raw_name, enc_key; vm_compute; reflexivity|].
    apply (reads_map lstring _ (c :: s) (fun s => mkEvent (ev_id e) (ev_pubkey e) (ev_created_at e) (ev_kind e) (ev_tags e) (ev_content e) s)).
    apply reads_string, jw_chars_enc, H.
  Qed.

  (** Reading into an event that is not empty: the fields left out of the text keep their old values. *)
  Definition leaves (e0 e : event) : Prop := (ev_id e = [] -> ev_id e0 = []) /\ (ev_pubkey e = [] -> ev_pubkey e0 = []) /\ (ev_sig e = [] -> ev_sig e0 = []).
  Lemma event_chain e0 e : leaves e0 e -> text_event e -> length (ev_tags e) < fuel -> (forall t, In t (ev_tags e) -> length t < fuel) ->
    ch e0 (event_members e) e.
  Proof.
    intros (L1 & L2 & L3) (H1 & H2 & H3 & H4 & H5 & H6 & H7) Hf Ht. unfold event_members.
    eapply chain_app; [apply ch_kind, H7|]. cbn.
    eapply chain_app; [apply ch_id; [exact H1|exact L1]|]. cbn [ev_id ev_pubkey ev_created_at ev_kind ev_tags ev_content ev_sig].
    eapply chain_app; [apply ch_pubkey; [exact H2|exact L2]|]. cbn [ev_id ev_pubkey ev_created_at ev_kind ev_tags ev_content ev_sig].
    eapply (chain_app _ _ _ [_]); [apply ch_created, H6|]. cbn [ev_id ev_pubkey ev_created_at ev_kind ev_tags ev_content ev_sig].
    eapply (chain_app _ _ _ [_]); [apply ch_tags; assumption|]. cbn [ev_id ev_pubkey ev_created_at ev_kind ev_tags ev_content ev_sig].
    eapply (chain_app _ _ _ [_]); [apply ch_content, H3|]. cbn [ev_id ev_pubkey ev_created_at ev_kind ev_tags ev_content ev_sig].
    pose proof (ch_sig (mkEvent (ev_id e) (ev_pubkey e) (ev_created_at e) (ev_kind e) (ev_tags e) (ev_content e) (ev_sig e0)) (ev_sig e) H4 L3) as C.
    cbn [ev_id ev_pubkey ev_created_at ev_kind ev_tags ev_content ev_sig] in C. destruct e. exact C.
  Qed.
End Fuel.

Lemma jw_array_count l : length l <= length (jw_array l).
Proof. pose proof (comma_sep_length l) as H. unfold jw_array. cbn [length]. rewrite app_length. cbn [length]. unfold str in *. lia. Qed.
Lemma jw_array_in t l : In t l -> length t <= length (jw_array l).
Proof. intro H. pose proof (comma_sep_in t l H) as L. unfold jw_array. cbn [length]. rewrite app_length. unfold str in *. lia. Qed.

Lemma member_length (p : str * str) l : In p l -> length (snd p) <= length (object_text l).
Proof.
  intro H. unfold object_text. cbn [length]. rewrite app_length.
  pose proof (comma_sep_in (member_text p) (map member_text l) (in_map _ _ _ H)) as L.
  assert (M : length (snd p) <= length (member_text p)).
  { unfold member_text; cbn [length]; rewrite app_length; cbn [length]. lia. }
  lia.
Qed.

Lemma event_round_trip_into e0 e : leaves e0 e -> text_event e -> decode_event_into e0 (encode_event e) = Ok e.
Proof.
  intros HL H. unfold decode_event_into. rewrite encode_event_object.
  assert (L : length (jw_array (map jw_strings (ev_tags e))) <= length (object_text (event_members e))).
  { apply (member_length (B "tags", jw_array (map jw_strings (ev_tags e)))). unfold event_members. rewrite !in_app_iff. cbn [In]. tauto. }
  apply decode_object_chain. apply event_chain; [exact HL|exact H| |].
  - pose proof (jw_array_count (map jw_strings (ev_tags e))) as C. rewrite map_length in C. unfold tag, str in *. lia.
  - intros t Ht. pose proof (jw_array_in _ _ (in_map jw_strings _ _ Ht)) as C.
    assert (length t <= length (jw_strings t)); [|unfold tag, str in *; lia].
    unfold jw_strings. pose proof (jw_array_count (map jw_string t)) as C'. rewrite map_length in C'. exact C'.
Qed.
Lemma event_round_trip e : text_event e -> decode_event (encode_event e) = Ok e.
Proof. apply event_round_trip_into. repeat split. Qed.
