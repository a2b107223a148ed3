(** C21-C27: bech32, NIP-19 codes and pointers. *)
From Verif Require Import Base EventModel TagsModel FilterModel Bech32Model Bech32Proofs Nip19Model Nip19Proofs.
Local Open Scope N_scope.

(** * C21 bech32 text round trip and error detection *)
(** For printable prefixes, the only ones bech32 allows; the prefix comes back in lower case. *)
Theorem C21_round_trip hrp data : hrp <> [] -> Forall (fun c => 33 <= val c <= 126) hrp -> Forall (fun v => v < 32) data ->
  exists t, encode hrp data = Ok t /\ decode t = Ok (map lower hrp, data).
Proof. exact (encode_decode hrp data). Qed.
Print Assumptions C21_round_trip.
Example C21_example : exists t, encode (B "npub") (map N.of_nat (seq 0 32) ++ [7; 7; 7]) = Ok t /\ decode t = Ok (B "npub", map N.of_nat (seq 0 32) ++ [7; 7; 7]).
Proof. eexists. split; [vm_compute; reflexivity|]. vm_compute. reflexivity. Qed.

(** Any length: one character of the data part (the text after the last 1) replaced by another letter, digit or sign.
    Missing: the substitute 1, which moves the border between prefix and data. *)
Theorem C21_substitution_detected_partial before c after c' h data :
  decode (before ++ c :: after) = Ok (h, data) -> ~ In "1"%char (c :: after) ->
  c' <> "1"%char -> lower c' <> lower c -> decode (before ++ c' :: after) = Err.
Proof.
  intros D N C L. eapply decode_subst; [exact D| |apply Ascii.eqb_neq; exact C|exact L].
  unfold no_one. apply forallb_forall. intros x Hx. apply negb_true_iff, Ascii.eqb_neq. intros ->. contradiction.
Qed.
Print Assumptions C21_substitution_detected_partial.
Example C21_substitution_example : decode (B "a12uel5l") = Ok (B "a", []) /\ decode (B "a12uel5m") = Err /\ decode (B "a12vel5l") = Err.
Proof. vm_compute. repeat split. Qed.
Theorem C21_substitute_one_refuted : exists before c after h data h' data', decode (before ++ c :: after) = Ok (h, data) /\ ~ In "1"%char (c :: after) /\
  decode (before ++ "1"%char :: after) = Ok (h', data') /\ h' <> h.
Proof.
  exists (B "npub1yehchqq"), "5"%char, (B "wujpen"). do 4 eexists. split; [vm_compute; reflexivity|]. split; [cbn; intuition discriminate|].
  split; [vm_compute; reflexivity|]. discriminate.
Qed.
Print Assumptions C21_substitute_one_refuted.

(** * C22 regrouping bits *)
Theorem C22_invertible data : Forall (fun b => b < 256) data ->
  exists out, convert_bits data 8 5 true = Ok out /\ Forall (fun v => v < 32) out /\ convert_bits out 5 8 false = Ok data.
Proof. exact (regroup_back data). Qed.
Print Assumptions C22_invertible.
(** The bits of a value, most significant first. *)
Fixpoint msb (w : nat) (v : N) : list bool := match w with O => [] | S k => N.testbit v (N.of_nat k) :: msb k v end.
Lemma msb_bits w v : bits w v = msb w v.
Proof.
  induction w as [|w IH]; [reflexivity|]. unfold bits in *. rewrite seq_S, rev_app_distr. cbn [rev app map msb plus]. rewrite IH. reflexivity.
Qed.
(** The groups are the same bits in the same order, then fewer than five zeros. *)
Theorem C22_same_bits data : Forall (fun b => b < 256) data -> exists out k, convert_bits data 8 5 true = Ok out /\
  (k < 5)%nat /\ flat_map (msb 5) out = flat_map (msb 8) data ++ repeat false k.
Proof.
  intro H. destruct (groups_spec data H) as (out & k & E & K & R). exists out, k. split; [exact E|]. split; [exact K|].
  destruct R as [R1 R2]. rewrite (flat_map_ext (msb 5) (bits 5)), (flat_map_ext (msb 8) (bits 8)) by (intro; symmetry; apply msb_bits). assumption.
Qed.
Print Assumptions C22_same_bits.
Example C22_example : convert_bits [255; 1; 128] 8 5 true = Ok [31; 28; 0; 24; 0] /\ convert_bits [31; 28; 0; 24; 0] 5 8 false = Ok [255; 1; 128].
Proof. vm_compute. split; reflexivity. Qed.

(** * C23 nsec, npub and note *)
Theorem C23_round_trip s b : hex_decode s = Some b -> length b = 32%nat ->
  (exists t, encode_private_key s = Ok t /\ nip19_decode t = Ok (B "nsec", KHex (hex_encode b))) /\
  (exists t, encode_public_key s = Ok t /\ nip19_decode t = Ok (B "npub", KHex (hex_encode b))) /\
  (exists t, encode_note s = Ok t /\ nip19_decode t = Ok (B "note", KHex (hex_encode b))).
Proof.
  intros H L. split; [|split]; (eapply code_hex_round; [cbn; auto|exact H|exact L]).
Qed.
Print Assumptions C23_round_trip.
(** For lower case input the text itself comes back. *)
Corollary C23_same_text s : length s = 64%nat -> forallb is_lower_hex_char s = true ->
  exists t, encode_public_key s = Ok t /\ nip19_decode t = Ok (B "npub", KHex s).
Proof.
  intros L H. destruct (hex_encode_decode s H) as (b & D & E); [rewrite L; reflexivity|].
  assert (length b = 32%nat) by (assert (Q := hex_encode_length b); rewrite E, L in Q; lia).
  destruct (C23_round_trip s b D H0) as (_ & Q & _). rewrite E in Q. exact Q.
Qed.
Print Assumptions C23_same_text.
Definition key1 : str := B "7e7e9c42a91bfef19fa929e5fda1b72e0ebc1a4c1141673e2794234d86addf4e".
(** the example of NIP-19 *)
Example C23_example : encode_public_key key1 = Ok (B "npub10elfcs4fr0l0r8af98jlmgdh9c8tcxjvz9qkw038js35mp4dma8qzvjptg") /\
  nip19_decode (B "npub10elfcs4fr0l0r8af98jlmgdh9c8tcxjvz9qkw038js35mp4dma8qzvjptg") = Ok (B "npub", KHex key1) /\
  nip19_decode (B "nsec1vl029mgpspedva04g90vltkh6fvh240zqtv9k0t9af8935ke9laqsnlfe5") = Ok (B "nsec", KHex (B "67dea2ed018072d675f5415ecfaed7d2597555e202d85b3d65ea4e58d2d92ffa")).
Proof. vm_compute. repeat split; reflexivity. Qed.

(** * C24 nprofile, nevent and naddr *)
(** A relay list without entries comes back as nil. *)
Definition relays_back (rs : list str) : option (list str) := match rs with [] => None | _ => Some rs end.
Definition short (s : str) : Prop := (length s <= 255)%nat.
Definition is_hex32 (s : str) : Prop := length s = 64%nat /\ forallb is_lower_hex_char s = true.

Lemma hex32_bytes s : is_hex32 s -> exists b, hex_decode s = Some b /\ length b = 32%nat /\ hex_encode b = s.
Proof.
  intros [L H]. destruct (hex_encode_decode s H) as (b & D & E); [rewrite L; reflexivity|]. exists b. repeat split; try assumption.
  assert (Q := hex_encode_length b). rewrite E, L in Q. lia.
Qed.

Theorem C24_nprofile pk rs : is_hex32 pk -> Forall short rs ->
  exists t, encode_profile pk rs = Ok t /\ nip19_decode t = Ok (B "nprofile", KPtr (PProfile (mkProfile pk (relays_back rs)))).
Proof.
  intros H R. destruct (hex32_bytes pk H) as (b & D & L & <-). exact (code_profile_round _ b rs D L R).
Qed.
Print Assumptions C24_nprofile.
(** Any kind the pointer had is not encoded; the decoded kind is 0. *)
Theorem C24_nevent id rs author : is_hex32 id -> Forall short rs -> author = [] \/ is_hex32 author ->
  exists t, encode_event_ptr id rs author = Ok t /\ nip19_decode t = Ok (B "nevent", KPtr (PEvent (mkEventPtr id (relays_back rs) author 0))).
Proof.
  intros H R A. destruct (hex32_bytes id H) as (b & D & L & <-). destruct A as [-> |A].
  - destruct (code_event_round _ b rs [] [] D L R eq_refl (or_intror eq_refl)) as (t & T1 & T2). exists t. split; [exact T1|exact T2].
  - destruct (hex32_bytes author A) as (ab & AD & AL & <-). exact (code_event_round _ b rs _ ab D L R (hex_prefix_decode _ _ AD) (or_introl AL)).
Qed.
Print Assumptions C24_nevent.
Theorem C24_naddr pk kind ident rs : is_hex32 pk -> Forall short rs -> (0 < kind < 2 ^ 32)%Z -> ident <> [] -> short ident ->
  exists t, encode_entity pk kind ident rs = Ok t /\ nip19_decode t = Ok (B "naddr", KPtr (PEntity (mkEntity pk kind ident (relays_back rs)))).
Proof.
  intros H R K I S. destruct (hex32_bytes pk H) as (b & D & L & <-). exact (code_entity_round _ b kind ident rs D L R K I S).
Qed.
Print Assumptions C24_naddr.
Example C24_example : exists t u v,
  encode_profile key1 [B "wss://r.x.com"; []; B "wss://djbas.sadkb.com"] = Ok t /\ nip19_decode t = Ok (B "nprofile", KPtr (PProfile (mkProfile key1 (Some [B "wss://r.x.com"; []; B "wss://djbas.sadkb.com"])))) /\
  encode_event_ptr key1 [] key1 = Ok u /\ nip19_decode u = Ok (B "nevent", KPtr (PEvent (mkEventPtr key1 None key1 0))) /\
  encode_entity key1 30023 (B "a:b") [B "ws://x"] = Ok v /\ nip19_decode v = Ok (B "naddr", KPtr (PEntity (mkEntity key1 30023 (B "a:b") (Some [B "ws://x"])))).
Proof. do 3 eexists. repeat (split; [vm_compute; reflexivity|]). vm_compute. reflexivity. Qed.

(** Relays of 256 bytes or more, an empty identifier, kind 0 or 2^32: the code is written but does not come back. *)
Theorem C24_long_relay_refuted : exists rs t, encode_profile key1 rs = Ok t /\ forall p, nip19_decode t <> Ok (B "nprofile", KPtr (PProfile (mkProfile p (Some rs)))).
Proof. exists [repeat "x"%char 256]. eexists. split; [vm_compute; reflexivity|]. intro p. vm_compute. discriminate. Qed.
Print Assumptions C24_long_relay_refuted.
Theorem C24_empty_identifier_refuted : exists t, encode_entity key1 30000 [] [] = Ok t /\ nip19_decode t = Err.
Proof. eexists. split; [vm_compute; reflexivity|]. vm_compute. reflexivity. Qed.
Print Assumptions C24_empty_identifier_refuted.
Theorem C24_kind_wraps_refuted : (exists t, encode_entity key1 0 (B "x") [] = Ok t /\ nip19_decode t = Err) /\
  exists t, encode_entity key1 (2 ^ 32 + 1) (B "x") [] = Ok t /\ nip19_decode t = Ok (B "naddr", KPtr (PEntity (mkEntity key1 1 (B "x") None))).
Proof. split; eexists; (split; [vm_compute; reflexivity|]); vm_compute; reflexivity. Qed.
Print Assumptions C24_kind_wraps_refuted.
(** A key of the wrong length is encoded without complaint. *)
Theorem C24_wrong_length_refuted : exists s t, encode_profile s [] = Ok t /\ nip19_decode t = Err.
Proof. exists (B "abcd"). eexists. split; [vm_compute; reflexivity|]. vm_compute. reflexivity. Qed.
Print Assumptions C24_wrong_length_refuted.

(** * C25 every input *)
(** Missing: naddr. *)
Theorem C25_no_crash_partial s : (forall d, decode s <> Ok (B "naddr", d)) -> nip19_decode s <> Panic.
Proof.
  intro N. rewrite decode_is_read. assert (P := decode_no_panic s). destruct (decode s) as [[h d]| |] eqn:E; cbn [obind]; try congruence.
  destruct (convert_bits d 5 8 false) eqn:C; cbn [obind]; try discriminate.
  - apply read_no_panic. intros ->. exact (N d eq_refl).
  - intros _. unfold convert_bits in C. destruct (regroup _ _ _ _ _) as [[o n] f]. destruct (_ && _); [discriminate|]. destruct (_ && _); discriminate.
Qed.
Print Assumptions C25_no_crash_partial.
Theorem C25_naddr_crash_refuted : exists s, nip19_decode s = Panic.
Proof.
  destruct (to_code (B "naddr") (write_tlv TLVKind (B "abc"))) as [t| |] eqn:E; [|vm_compute in E; discriminate|vm_compute in E; discriminate].
  exists t. vm_compute in E. injection E as <-. vm_compute. reflexivity.
Qed.
Print Assumptions C25_naddr_crash_refuted.
(** Exactly which texts crash Decode: an naddr whose bytes start with entries that are all taken, followed by a kind of fewer than four bytes.
    An entry is a type byte, a length byte and that many bytes; an author must have 32 bytes and a kind at least four to be taken. *)
Definition entry_text (e : N * str) : str := byte_of (fst e) :: byte_of (N.of_nat (length (snd e))) :: snd e.
Definition taken (e : N * str) : Prop := fst e < 256 /\ (length (snd e) <= 255)%nat /\ (fst e = 2 -> length (snd e) = 32%nat) /\ (fst e = 3 -> (4 <= length (snd e))%nat).
Definition short_kind (data : str) : Prop := exists before v after, Forall taken before /\ (length v < 4)%nat /\ data = concat (map entry_text before) ++ entry_text (3%N, v) ++ after.
Lemma read_tlv_entry data t v : read_tlv data = Some (t, v) -> data = entry_text (t, v) ++ skipn (2 + length v) data /\ t < 256 /\ (length v <= 255)%nat.
Proof.
  unfold read_tlv. destruct data as [|a [|n r]]; try discriminate. destruct (Nat.ltb_spec (length r) (N.to_nat (val n))) as [L|L]; [discriminate|]. intro E.
  assert (t = val a /\ v = firstn (N.to_nat (val n)) r) as [-> ->] by (split; congruence). assert (V := val_lt n). rewrite firstn_length, Nat.min_l by exact L.
  unfold entry_text. cbn [fst snd app plus skipn]. rewrite byte_of_val. rewrite firstn_length, Nat.min_l by exact L. rewrite N2Nat.id, byte_of_val, firstn_skipn. split; [reflexivity|]. split; [apply val_lt|lia].
Qed.
Lemma entity_entry_panic t v a : entity_entry t v a = Panic <-> t = 3 /\ (length v < 4)%nat.
Proof.
  unfold entity_entry, TLVDefault, TLVRelay, TLVAuthor, TLVKind. destruct (N.eqb_spec t 0); [split; [discriminate|lia]|]. destruct (N.eqb_spec t 1); [split; [discriminate|lia]|].
  destruct (N.eqb_spec t 2); [destruct (negb _); (split; [discriminate|lia])|]. destruct (N.eqb_spec t 3) as [K|K]; [|split; [discriminate|tauto]].
  destruct v as [|x1 [|x2 [|x3 [|x4 v]]]]; cbn [be32 obind length]; split; try discriminate; try lia; auto with arith.
Qed.
Lemma entity_entry_taken t v a a' : t < 256 -> (length v <= 255)%nat -> entity_entry t v a = Ok a' -> taken (t, v).
Proof.
  intros T L. unfold entity_entry, TLVDefault, TLVRelay, TLVAuthor, TLVKind, taken. cbn [fst snd]. destruct (N.eqb_spec t 0); [intros _; lia|]. destruct (N.eqb_spec t 1); [intros _; lia|].
  destruct (N.eqb_spec t 2); [destruct (Nat.eqb_spec (length v) 32); [intros _; lia|discriminate]|]. destruct (N.eqb_spec t 3) as [K|K]; [|intros _; lia].
  destruct v as [|x1 [|x2 [|x3 [|x4 v]]]]; cbn [be32 obind length]; try discriminate. cbn [length] in L. intros _. repeat split; lia.
Qed.
Lemma taken_entry t v a : taken (t, v) -> exists a', entity_entry t v a = Ok a'.
Proof.
  unfold entity_entry, TLVDefault, TLVRelay, TLVAuthor, TLVKind, taken. cbn [fst snd]. intros (_ & _ & A & K). destruct (N.eqb_spec t 0); [eauto|]. destruct (N.eqb_spec t 1); [eauto|].
  destruct (N.eqb_spec t 2) as [E|E]; [rewrite (A E); cbn; eauto|]. destruct (N.eqb_spec t 3) as [E3|E3]; [|eauto]. specialize (K E3).
  destruct v as [|x1 [|x2 [|x3 [|x4 v]]]]; cbn [length] in K; try lia. cbn. eauto.
Qed.
Lemma entity_loop_panic : forall fuel data a, (length data <= fuel)%nat -> (tlv_loop fuel entity_entry data a = Panic <-> short_kind data).
Proof.
  assert (B1 : forall before v after fuel a, Forall taken before -> (length v < 4)%nat -> (length (concat (map entry_text before) ++ entry_text (3%N, v) ++ after) <= fuel)%nat ->
    tlv_loop fuel entity_entry (concat (map entry_text before) ++ entry_text (3%N, v) ++ after) a = Panic).
  { induction before as [|[t w] before IH]; intros v after fuel a F L H; cbn [map concat app].
    - rewrite tlv_loop_unfold. change (entry_text (3%N, v)) with (write_tlv 3%N v). rewrite read_write by lia. rewrite (proj2 (entity_entry_panic 3%N v a)) by auto. reflexivity.
    - inversion F as [|? ? T F']; subst. pose proof T as (T1 & T2 & _). cbn [fst snd] in T1, T2. cbn [map concat] in H. rewrite <- !app_assoc in *. rewrite tlv_loop_unfold.
      change (entry_text (t, w)) with (write_tlv t w) in *. rewrite read_write by assumption. destruct (taken_entry t w a T) as [a' ->]. cbn [obind].
      destruct fuel as [|fuel]; [rewrite app_length in H; cbn in H; lia|]. rewrite app_length in H. unfold write_tlv in H at 1. cbn [length] in H.
      rewrite skipn_app. replace (skipn (2 + length w) (write_tlv t w)) with (@nil ascii) by (symmetry; apply skipn_all2; cbn; lia). replace (2 + length w - length (write_tlv t w))%nat with 0%nat by (cbn; lia). cbn [skipn app].
      apply IH; [exact F'|exact L|]. lia. }
  intros fuel data a H. split; [|intros (before & v & after & F & L & ->); apply B1; assumption].
  revert data a H. induction fuel as [|fuel IH]; intros data a H; rewrite tlv_loop_unfold.
  - destruct data; [|cbn in H; lia]. discriminate.
  - destruct (read_tlv data) as [[t v]|] eqn:R; [|discriminate]. destruct (read_tlv_entry _ _ _ R) as (E & T & L). destruct (entity_entry t v a) as [a'| |] eqn:X; cbn [obind]; [|discriminate|].
    + intro P. apply IH in P; [|rewrite skipn_length; lia]. destruct P as (before & w & after & F & L2 & E2). exists ((t, v) :: before), w, after. split; [constructor; [eapply entity_entry_taken; eassumption|exact F]|]. split; [exact L2|].
      cbn [map concat]. rewrite <- app_assoc. rewrite <- E2. exact E.
    + intros _. apply entity_entry_panic in X as [-> L2]. exists [], v, (skipn (2 + length v) data). split; [constructor|]. split; [exact L2|exact E].
Qed.
Theorem C25_panics_exactly s : nip19_decode s = Panic <-> exists bits nums, decode s = Ok (B "naddr", bits) /\ convert_bits bits 5 8 false = Ok nums /\ short_kind (bytes_of nums).
Proof.
  rewrite decode_is_read. assert (P := decode_no_panic s). destruct (decode s) as [[h d]| |] eqn:E; cbn [obind]; [|split; [discriminate|intros (x & y & Q & _); discriminate]|congruence].
  assert (C : convert_bits d 5 8 false <> Panic) by (unfold convert_bits; destruct (regroup _ _ _ _ _) as [[o n] f]; destruct (_ && _); [discriminate|]; destruct (_ && _); discriminate).
  destruct (convert_bits d 5 8 false) as [nums| |] eqn:Q; cbn [obind]; [|split; [discriminate|intros (x & y & Q1 & Q2 & _); congruence]|congruence].
  destruct (str_eq_dec h (B "naddr")) as [->|N].
  - change (read_bytes (B "naddr") (bytes_of nums)) with (obind (tlv_loop (length (bytes_of nums)) entity_entry (bytes_of nums) (mkEntity [] 0 [] None)) (fun p =>
          if Z.eqb (en_kind p) 0 || empty (en_identifier p) || empty (en_pubkey p) then Err else Ok (B "naddr", KPtr (PEntity p)))).
    pose proof (entity_loop_panic (length (bytes_of nums)) (bytes_of nums) (mkEntity [] 0 [] None) (le_n _)) as K.
    destruct (tlv_loop _ _ _ _) as [p| |]; cbn [obind].
    + split; [destruct (_ || _); discriminate|]. intros (x & y & Q1 & Q2 & S0). assert (y = nums) as -> by congruence. apply K in S0. discriminate.
    + split; [discriminate|]. intros (x & y & Q1 & Q2 & S0). assert (y = nums) as -> by congruence. apply K in S0. discriminate.
    + split; [|reflexivity]. intros _. exists d, nums. split; [reflexivity|]. split; [exact Q|]. apply K. reflexivity.
  - split; [intro X; destruct (read_no_panic h (bytes_of nums) N X)|]. intros (x & y & Q1 & _). congruence.
Qed.
Print Assumptions C25_panics_exactly.
Example C25_panics_exactly_applies : short_kind (B "abcdefgh") -> False.
Proof.
  intros (before & v & after & F & L & E). destruct before as [|[t w] before].
  - cbn in E. discriminate.
  - inversion F as [|? ? T F']; subst. destruct T as (T1 & T2 & _). cbn [fst snd map concat entry_text app] in *. injection E as E1 E2 E3. apply (f_equal (@length ascii)) in E3. rewrite !app_length in E3. apply (f_equal val) in E2. rewrite val_byte_of in E2 by lia.
    change (val "b") with 98 in E2. cbn in E3. lia.
Qed.
Example C25_short_kind : short_kind (entry_text (0, B "x") ++ entry_text (2, repeat "k"%char 32) ++ entry_text (3, B "abc")).
Proof. exists [(0, B "x"); (2, repeat "k"%char 32)], (B "abc"), []. split; [|split; [cbn; lia|reflexivity]]. apply Forall_cons; [|apply Forall_cons; [|apply Forall_nil]]; unfold taken; cbn [fst snd]; (split; [lia|]); (split; [cbn; lia|]); (split; [intro; cbn; lia|intro; lia]). Qed.
(** What a success means, for all six codes. *)
Definition well_formed (prefix : str) (c : code) : Prop :=
  match c with
  | KHex h => In prefix [B "npub"; B "nsec"; B "note"] /\ is_hex32 h
  | KPtr (PProfile p) => prefix = B "nprofile" /\ is_hex32 (pp_pubkey p)
  | KPtr (PEvent p) => prefix = B "nevent" /\ is_hex32 (ep_id p) /\ (ep_author p = [] \/ is_hex32 (ep_author p)) /\ (0 <= ep_kind p < 2 ^ 32)%Z
  | KPtr (PEntity p) => prefix = B "naddr" /\ is_hex32 (en_pubkey p) /\ (0 < en_kind p < 2 ^ 32)%Z /\ en_identifier p <> []
  end.
Theorem C25_success_well_formed s prefix c : nip19_decode s = Ok (prefix, c) -> well_formed prefix c.
Proof. intro H. apply decode_sound in H. destruct c as [h|[p|p|p]]; exact H. Qed.
Print Assumptions C25_success_well_formed.
(** ToPointer's type assertions hold: it crashes only when Decode does. *)
Theorem C25_to_pointer s : nip19_decode s <> Panic -> to_pointer s <> Panic.
Proof.
  unfold to_pointer. destruct (nip19_decode s) as [[p [h|q]]| |]; cbn [obind]; try congruence; intros _.
  destruct (seqb p (B "npub")); [discriminate|]. destruct (seqb p (B "note")); discriminate.
Qed.
Print Assumptions C25_to_pointer.
Example C25_example : nip19_decode (B "naddr1") = Err /\ (exists t, to_code (B "nevent") (write_tlv TLVKind (B "abc")) = Ok t /\ nip19_decode t = Err) /\ to_pointer (B "nsec1vl029mgpspedva04g90vltkh6fvh240zqtv9k0t9af8935ke9laqsnlfe5") = Err.
Proof. split; [vm_compute; reflexivity|]. split; [eexists; split; [vm_compute; reflexivity|vm_compute; reflexivity]|]. vm_compute. reflexivity. Qed.

(** * C26 EncodePointer and ToPointer *)
Definition encodable (p : pointer) : Prop :=
  match p with
  | PProfile v => is_hex32 (pp_pubkey v) /\ (forall rs, pp_relays v = Some rs -> rs <> [] /\ Forall short rs)
  | PEvent v => is_hex32 (ep_id v) /\ (forall rs, ep_relays v = Some rs -> rs <> [] /\ Forall short rs) /\ (ep_author v = [] \/ is_hex32 (ep_author v)) /\ ep_kind v = 0%Z
  | PEntity v => is_hex32 (en_pubkey v) /\ (forall rs, en_relays v = Some rs -> rs <> [] /\ Forall short rs) /\ (0 < en_kind v < 2 ^ 32)%Z /\ en_identifier v <> [] /\ short (en_identifier v)
  end.
Lemma back_items (o : option (list str)) : (forall rs, o = Some rs -> rs <> [] /\ Forall short rs) -> relays_back (items o) = o /\ Forall short (items o).
Proof.
  destruct o as [rs|]; cbn; [|intros _; split; [reflexivity|constructor]]. intro H. destruct (H rs eq_refl) as [N F].
  split; [|exact F]. destruct rs; [congruence|reflexivity].
Qed.
(** Missing: event pointers with a kind, empty relay lists that are not nil, and fields the code cannot hold. *)
Theorem C26_round_trip_partial p : encodable p -> to_pointer (encode_pointer p) = Ok p.
Proof.
  destruct p as [[pk o]|[id o a k]|[pk k i o]]; cbn [encodable encode_pointer pp_pubkey pp_relays ep_id ep_relays ep_author ep_kind en_pubkey en_kind en_identifier en_relays].
  - intros (H & R). destruct (back_items o R) as [R1 R2]. destruct o as [rs|].
    + destruct (C24_nprofile pk rs H R2) as (t & T1 & T2). unfold to_pointer. rewrite T1. cbn [or_empty]. rewrite T2. cbn [obind]. cbn [items] in R1. rewrite R1. reflexivity.
    + destruct H as [H1 H2]. destruct (C23_same_text pk H1 H2) as (t & T1 & T2). unfold to_pointer. rewrite T1. cbn [or_empty]. rewrite T2. reflexivity.
  - intros (H & R & A & ->). destruct (back_items o R) as [R1 R2]. destruct (C24_nevent id (items o) a H R2 A) as (t & T1 & T2).
    unfold to_pointer. rewrite T1. cbn [or_empty]. rewrite T2. cbn [obind]. rewrite R1. reflexivity.
  - intros (H & R & K & I & S). destruct (back_items o R) as [R1 R2]. destruct (C24_naddr pk k i (items o) H R2 K I S) as (t & T1 & T2).
    unfold to_pointer. rewrite T1. cbn [or_empty]. rewrite T2. cbn [obind]. rewrite R1. reflexivity.
Qed.
Print Assumptions C26_round_trip_partial.
(** Exactly these pointers come back. *)
Lemma ok_same {A} (x y : A) : Ok x = Ok y -> x = y.
Proof. intro H. injection H. auto. Qed.
Lemma loop_inv_short {A} (P : A -> Prop) (step : N -> str -> A -> outcome A) : (forall t v a a', P a -> (length v <= 255)%nat -> step t v a = Ok a' -> P a') ->
  forall fuel data a r, P a -> tlv_loop fuel step data a = Ok r -> P r.
Proof.
  intro Hs. induction fuel as [|f IH]; intros data a r Ha; rewrite tlv_loop_unfold; destruct (read_tlv data) as [[t v]|] eqn:R.
  - destruct (step t v a); cbn; discriminate.
  - intro E. injection E as <-. exact Ha.
  - destruct (step t v a) as [a'| |] eqn:E; cbn [obind]; [|discriminate|discriminate]. apply IH. exact (Hs _ _ _ _ Ha (proj2 (proj2 (read_tlv_entry _ _ _ R))) E).
  - intro E. injection E as <-. exact Ha.
Qed.
Definition read_relays (o : option (list str)) : Prop := forall rs, o = Some rs -> rs <> [] /\ Forall short rs.
Lemma read_relays_snoc o v : read_relays o -> (length v <= 255)%nat -> read_relays (snoc o v).
Proof.
  intros H L rs. destruct o as [l|]; cbn [snoc]; intro E.
  - assert (rs = l ++ [v]) as -> by (injection E as <-; reflexivity). split; [destruct l; discriminate|]. apply Forall_app. split; [apply (H l eq_refl)|]. apply Forall_cons; [exact L|apply Forall_nil].
  - assert (rs = [v]) as -> by (injection E as <-; reflexivity). split; [discriminate|]. apply Forall_cons; [exact L|apply Forall_nil].
Qed.
Definition small_parts (p : pointer) : Prop :=
  match p with PProfile v => read_relays (pp_relays v) | PEvent v => read_relays (ep_relays v) | PEntity v => read_relays (en_relays v) /\ short (en_identifier v) end.
Lemma none_relays : read_relays None.
Proof. intros rs H. discriminate. Qed.
Lemma read_bytes_small prefix data h q : read_bytes prefix data = Ok (h, KPtr q) -> small_parts q.
Proof.
  unfold read_bytes. destruct (_ || _); [destruct (negb _); discriminate|]. destruct (seqb prefix (B "nprofile")).
  { destruct (tlv_loop _ profile_entry data _) as [p| |] eqn:E; cbn [obind]; try discriminate. apply (loop_inv_short (fun a => read_relays (pp_relays a))) in E.
    - destruct (empty _); [discriminate|]. intro Q. assert (q = PProfile p) as -> by congruence. exact E.
    - intros t v a a' I L. unfold profile_entry. destruct (t =? TLVDefault); [destruct (negb _); [discriminate|]; intro Q; apply ok_same in Q; subst a'; exact I|].
      destruct (t =? TLVRelay); intro Q; apply ok_same in Q; subst a'; [apply read_relays_snoc; assumption|exact I].
    - exact none_relays. }
  destruct (seqb prefix (B "nevent")).
  { destruct (tlv_loop _ event_entry data _) as [p| |] eqn:E; cbn [obind]; try discriminate. apply (loop_inv_short (fun a => read_relays (ep_relays a))) in E.
    - destruct (empty _); [discriminate|]. intro Q. assert (q = PEvent p) as -> by congruence. exact E.
    - intros t v a a' I L. unfold event_entry. destruct (t =? TLVDefault); [destruct (negb _); [discriminate|]; intro Q; apply ok_same in Q; subst a'; exact I|].
      destruct (t =? TLVRelay); [intro Q; apply ok_same in Q; subst a'; apply read_relays_snoc; assumption|].
      destruct (t =? TLVAuthor); [destruct (negb _); [discriminate|]; intro Q; apply ok_same in Q; subst a'; exact I|].
      destruct (t =? TLVKind); [destruct (negb _); [discriminate|]; destruct (be32 v); cbn [obind]; try discriminate; intro Q; apply ok_same in Q; subst a'; exact I|]. intro Q; apply ok_same in Q; subst a'; exact I.
    - exact none_relays. }
  destruct (seqb prefix (B "naddr")); [|discriminate].
  destruct (tlv_loop _ entity_entry data _) as [p| |] eqn:E; cbn [obind]; try discriminate. apply (loop_inv_short (fun a => read_relays (en_relays a) /\ short (en_identifier a))) in E.
  - destruct (_ || _); [discriminate|]. intro Q. assert (q = PEntity p) as -> by congruence. exact E.
  - intros t v a a' [I I2] L. unfold entity_entry. destruct (t =? TLVDefault); [intro Q; apply ok_same in Q; subst a'; split; [exact I|exact L]|].
    destruct (t =? TLVRelay); [intro Q; apply ok_same in Q; subst a'; split; [apply read_relays_snoc; assumption|exact I2]|].
    destruct (t =? TLVAuthor); [destruct (negb _); [discriminate|]; intro Q; apply ok_same in Q; subst a'; split; assumption|].
    destruct (t =? TLVKind); [destruct (be32 v); cbn [obind]; try discriminate; intro Q; apply ok_same in Q; subst a'; split; assumption|]. intro Q; apply ok_same in Q; subst a'; split; assumption.
  - split; [exact none_relays|]. unfold short. cbn. lia.
Qed.
Lemma to_pointer_small s q : to_pointer s = Ok q -> small_parts q /\
  match q with PProfile v => is_hex32 (pp_pubkey v) | PEvent v => is_hex32 (ep_id v) /\ (ep_author v = [] \/ is_hex32 (ep_author v)) | PEntity v => is_hex32 (en_pubkey v) /\ (0 < en_kind v < 2 ^ 32)%Z /\ en_identifier v <> [] end.
Proof.
  unfold to_pointer. destruct (nip19_decode s) as [[pre c]| |] eqn:D; cbn [obind]; try discriminate. pose proof (C25_success_well_formed _ _ _ D) as W. destruct c as [h|p].
  - destruct W as [_ W]. destruct (seqb pre (B "npub")); [|destruct (seqb pre (B "note")); [|discriminate]]; intro Q; apply ok_same in Q; subst q; cbn; (split; [exact none_relays|]); [exact W|split; [exact W|left; reflexivity]].
  - intro Q. apply ok_same in Q. subst q. split.
    + rewrite decode_is_read in D. destruct (decode s) as [[hh b5]| |]; cbn [obind] in D; try discriminate. destruct (convert_bits b5 5 8 false); cbn [obind] in D; try discriminate. exact (read_bytes_small _ _ _ _ D).
    + destruct p as [p|p|p]; cbn in W; tauto.
Qed.
Theorem C26_round_trip_exactly p : to_pointer (encode_pointer p) = Ok p <-> encodable p.
Proof.
  split; [|apply C26_round_trip_partial]. intro H. destruct (to_pointer_small _ _ H) as [Sm W]. destruct p as [[pk o]|[id o a k]|[pk k i o]]; cbn [small_parts pp_pubkey pp_relays ep_id ep_relays ep_author ep_kind en_pubkey en_kind en_identifier en_relays encodable] in *.
  - split; [exact W|exact Sm].
  - destruct W as [W1 W2]. split; [exact W1|]. split; [exact Sm|]. split; [exact W2|]. assert (Z0 : to_pointer (encode_pointer (PEvent (mkEventPtr id o a 0))) = Ok (PEvent (mkEventPtr id o a 0))) by (apply C26_round_trip_partial; cbn; auto).
    change (encode_pointer (PEvent (mkEventPtr id o a 0))) with (encode_pointer (PEvent (mkEventPtr id o a k))) in Z0. rewrite H in Z0. congruence.
  - destruct Sm as [S1 S2]. destruct W as (W1 & W2 & W3). auto.
Qed.
Print Assumptions C26_round_trip_exactly.
(** Event pointers in general: everything but the kind comes back. *)
Theorem C26_event_keeps_the_rest id rs a k : is_hex32 id -> rs <> [] -> Forall short rs -> a = [] \/ is_hex32 a ->
  to_pointer (encode_pointer (PEvent (mkEventPtr id (Some rs) a k))) = Ok (PEvent (mkEventPtr id (Some rs) a 0)).
Proof.
  intros H N R A. rewrite <- (C26_round_trip_partial (PEvent (mkEventPtr id (Some rs) a 0))); [reflexivity|]. cbn. split; [exact H|].
  split; [intros rs' E; injection E as <-; auto|]. auto.
Qed.
Print Assumptions C26_event_keeps_the_rest.
Example C26_example : encodable (PEvent (mkEventPtr key1 (Some [B "wss://a"; B "wss://b"]) key1 0)) /\ encodable (PProfile (mkProfile key1 None)) /\
  encodable (PEntity (mkEntity key1 30023 (B "x") None)) /\ encode_pointer (PProfile (mkProfile key1 None)) = B "npub10elfcs4fr0l0r8af98jlmgdh9c8tcxjvz9qkw038js35mp4dma8qzvjptg".
Proof.
  assert (K : is_hex32 key1) by (split; vm_compute; reflexivity).
  split; [|split; [|split]].
  - cbn [encodable ep_id ep_relays ep_author ep_kind]. split; [exact K|]. split; [|split; [right; exact K|reflexivity]].
    intros rs E. injection E as <-. split; [discriminate|]. repeat constructor; unfold short; cbn; lia.
  - cbn. split; [exact K|discriminate].
  - cbn. split; [exact K|]. split; [discriminate|]. split; [lia|]. split; [discriminate|]. unfold short. cbn. lia.
  - vm_compute. reflexivity.
Qed.
Theorem C26_kind_lost_refuted : exists p, to_pointer (encode_pointer (PEvent p)) <> Ok (PEvent p) /\ is_hex32 (ep_id p) /\ ep_kind p = 1%Z /\ ep_relays p = None /\ ep_author p = [].
Proof. exists (mkEventPtr key1 None [] 1). split; [vm_compute; discriminate|]. repeat split; vm_compute; reflexivity. Qed.
Print Assumptions C26_kind_lost_refuted.
Theorem C26_bad_pointer_refuted : (exists p, encode_pointer (PProfile p) = [] /\ to_pointer [] = Err) /\
  (exists p a, encode_pointer (PEvent p) <> [] /\ ep_author p = a /\ a <> [] /\ exists q, to_pointer (encode_pointer (PEvent p)) = Ok (PEvent q) /\ ep_author q = []) /\
  (exists p, pp_relays p = Some [] /\ exists q, to_pointer (encode_pointer (PProfile p)) = Ok (PProfile q) /\ pp_relays q = None).
Proof.
  split; [exists (mkProfile (B "zz") None); vm_compute; split; reflexivity|]. split.
  - exists (mkEventPtr key1 None (B "abcd") 0), (B "abcd"). split; [vm_compute; discriminate|]. split; [reflexivity|]. split; [discriminate|].
    eexists. split; [vm_compute; reflexivity|]. vm_compute. reflexivity.
  - exists (mkProfile key1 (Some [])). split; [reflexivity|]. eexists. split; [vm_compute; reflexivity|]. vm_compute. reflexivity.
Qed.
Print Assumptions C26_bad_pointer_refuted.

(** * C27 pointers and tags *)
Section Pointers.
  Variable parse_ok relay_ok : str -> bool.

  (** the first relay, if there is one *)
  Definition first_relay (o : option (list str)) : option (list str) := match o with Some (r :: _) => Some [r] | _ => None end.
  Definition relay_fine (o : option (list str)) : Prop := forall r l, o = Some (r :: l) -> relay_ok r = true.
  (** a key as IsValidPublicKey wants it: lower case hex that names a point *)
  Definition key_fine (pk : str) : Prop := forallb is_lower_hex_char pk = true /\ parse_ok (hex_prefix pk) = true.
  Lemma key_valid pk : key_fine pk <-> valid_pubkey parse_ok pk = true.
  Proof. unfold key_fine, valid_pubkey. rewrite andb_true_iff. reflexivity. Qed.
  Lemma id_valid id : is_hex32 id -> valid_32byte_hex id = true.
  Proof. intro H. destruct (hex32_bytes id H) as (b & D & _ & _). destruct H as [L H]. unfold valid_32byte_hex. rewrite H, L, D. reflexivity. Qed.

  Theorem C27_profile_tag p : key_fine (pp_pubkey p) -> relay_fine (pp_relays p) ->
    profile_from_tag parse_ok relay_ok (profile_as_tag p) = Ok (mkProfile (pp_pubkey p) (first_relay (pp_relays p))).
  Proof.
    destruct p as [pk o]. cbn [pp_pubkey pp_relays]. intros K R. apply key_valid in K. unfold profile_as_tag, profile_from_tag. cbn [pp_pubkey pp_relays].
    destruct o as [[|r l]|]; cbn [items at_ nth_error obind first_relay]; rewrite K; cbn [negb]; unfold relay_of; cbn [nth_error]; try reflexivity.
    rewrite (R r l eq_refl). reflexivity.
  Qed.

  Theorem C27_event_tag_partial p : is_hex32 (ep_id p) -> relay_fine (ep_relays p) -> (ep_author p = [] \/ key_fine (ep_author p)) ->
    (ep_author p <> [] -> first_relay (ep_relays p) <> None) ->
    event_ptr_from_tag parse_ok relay_ok (event_ptr_as_tag p) = Ok (mkEventPtr (ep_id p) (first_relay (ep_relays p)) (ep_author p) 0).
  Proof.
    destruct p as [id o a k]. cbn [ep_id ep_relays ep_author ep_kind]. intros I R A N. apply id_valid in I. unfold event_ptr_as_tag, event_ptr_from_tag. cbn [ep_id ep_relays ep_author].
    assert (Ha : o = None \/ o = Some [] -> a = []) by (destruct a; [reflexivity|]; intros [-> | ->]; exfalso; apply N; (discriminate || reflexivity)).
    destruct o as [[|r l]|]; cbn [items].
    1,3: cbn [at_ nth_error obind first_relay]; rewrite I; cbn [negb]; rewrite Ha by auto; reflexivity.
    destruct A as [-> |A].
    - cbn [empty at_ nth_error obind first_relay]. rewrite I. cbn [negb]. unfold relay_of. cbn [nth_error]. rewrite (R r l eq_refl). reflexivity.
    - apply key_valid in A. destruct (empty a) eqn:E.
      + apply empty_true in E. subst a. cbn [empty at_ nth_error obind first_relay]. rewrite I. cbn [negb]. unfold relay_of. cbn [nth_error]. rewrite (R r l eq_refl). reflexivity.
      + cbn [at_ nth_error obind first_relay]. rewrite I. cbn [negb]. unfold relay_of. cbn [nth_error]. rewrite (R r l eq_refl), A. reflexivity.
  Qed.

  (** Go's %d:%s:%s and back. *)
  Lemma cut_app a r : ~ In ":"%char a -> cut ":"%char (a ++ ":"%char :: r) = Some (a, r).
  Proof.
    induction a as [|x a IH]; intro N; [reflexivity|]. cbn [app cut]. destruct (ceqb x ":") eqn:E.
    - apply Ascii.eqb_eq in E. subst. exfalso. apply N. left. reflexivity.
    - rewrite IH; [reflexivity|]. intro Q. apply N. right. exact Q.
  Qed.
  Lemma no_colon (p : ascii -> bool) s : p ":"%char = false -> forallb p s = true -> ~ In ":"%char s.
  Proof. intros H F I. rewrite forallb_forall in F. specialize (F _ I). congruence. Qed.
  Lemma dec_no_colon z : ~ In ":"%char (dec_Z z).
  Proof.
    unfold dec_Z. destruct z as [|q|q].
    - apply (no_colon is_digit); [reflexivity|]. apply dec_N_digits.
    - apply (no_colon is_digit); [reflexivity|]. apply dec_N_digits.
    - intros [E|I]; [discriminate|]. revert I. apply (no_colon is_digit); [reflexivity|]. apply dec_N_digits.
  Qed.
  Theorem C27_reference_splits p : forallb is_lower_hex_char (en_pubkey p) = true ->
    split3 (entity_ref p) = Some (dec_Z (en_kind p), en_pubkey p, en_identifier p).
  Proof.
    intro H. unfold split3, entity_ref. rewrite cut_app by apply dec_no_colon. rewrite cut_app; [reflexivity|].
    apply (no_colon is_lower_hex_char); [reflexivity|exact H].
  Qed.
  Theorem C27_entity_tag p : key_fine (en_pubkey p) -> relay_fine (en_relays p) -> (0 <= en_kind p <= 65535)%Z ->
    entity_from_tag parse_ok relay_ok (entity_as_tag p) = Ok (mkEntity (en_pubkey p) (en_kind p) (en_identifier p) (first_relay (en_relays p))).
  Proof.
    intros K R Z. assert (V := proj1 (key_valid _) K). destruct K as [K _].
    assert (S := C27_reference_splits p K). assert (I : parse_int (dec_Z (en_kind p)) = Some (en_kind p)) by (apply parse_int_dec_Z; unfold min_int64, max_int64; lia).
    unfold entity_as_tag, entity_from_tag. destruct (Z.ltb_spec 65536 (en_kind p)) as [Q|Q]; [lia|]. apply Z.ltb_ge in Q.
    destruct (en_relays p) as [[|r l]|] eqn:E; cbn [items at_ nth_error obind first_relay]; rewrite S, V; cbn [negb]; rewrite I, Q; unfold relay_of; cbn [nth_error]; try reflexivity.
    rewrite (R r l eq_refl). reflexivity.
  Qed.
End Pointers.
Print Assumptions C27_profile_tag.
Print Assumptions C27_event_tag_partial.
Print Assumptions C27_reference_splits.
Print Assumptions C27_entity_tag.
Example C27_example :
  let ok := fun s => Nat.eqb (length s) 32 in let ws := fun r => has_prefix r (B "ws") in
  entity_from_tag ok ws (entity_as_tag (mkEntity key1 30023 (B "a:b::c") (Some [B "wss://a"; B "wss://b"]))) = Ok (mkEntity key1 30023 (B "a:b::c") (Some [B "wss://a"])) /\
  event_ptr_from_tag ok ws (event_ptr_as_tag (mkEventPtr key1 (Some [B "wss://a"]) key1 0)) = Ok (mkEventPtr key1 (Some [B "wss://a"]) key1 0) /\
  profile_from_tag ok ws (profile_as_tag (mkProfile key1 None)) = Ok (mkProfile key1 None).
Proof. vm_compute. repeat split; reflexivity. Qed.

(** The author of an event pointer without relays is lost, and so is any kind. *)
Theorem C27_event_tag_refuted : forall parse_ok relay_ok, exists p, is_hex32 (ep_id p) /\ ep_author p = key1 /\ ep_relays p = None /\
  exists q, event_ptr_from_tag parse_ok relay_ok (event_ptr_as_tag p) = Ok q /\ ep_author q = [].
Proof. intros P R. exists (mkEventPtr key1 None key1 0). split; [split; vm_compute; reflexivity|]. split; [reflexivity|]. split; [reflexivity|]. eexists. split; [vm_compute; reflexivity|]. vm_compute. reflexivity. Qed.
Print Assumptions C27_event_tag_refuted.
(** A tag with only a name crashes the parser. *)
Theorem C27_short_tag_refuted : forall parse_ok relay_ok, profile_from_tag parse_ok relay_ok [B "p"] = Panic /\ event_ptr_from_tag parse_ok relay_ok [B "e"] = Panic /\ entity_from_tag parse_ok relay_ok [B "a"] = Panic.
Proof. intros. repeat split; reflexivity. Qed.
Print Assumptions C27_short_tag_refuted.
(** IsValidPublicKey ignores the error of hex.DecodeString, so 65 digits pass wherever their first 64 do. *)
Theorem C27_odd_key_refuted : forall parse_ok, valid_pubkey parse_ok key1 = true -> exists pk, length pk = 65%nat /\ valid_pubkey parse_ok pk = true.
Proof.
  intros P H. exists (key1 ++ [ "0"%char ]). split; [reflexivity|]. unfold valid_pubkey in *. apply andb_true_iff in H as [_ H].
  apply andb_true_iff. split; [vm_compute; reflexivity|]. exact H.
Qed.
Print Assumptions C27_odd_key_refuted.

(** Matching. *)
Theorem C27_event_match p e : pointer_matches (PEvent p) e = filter_matches (pointer_filter (PEvent p)) (Some e).
Proof.
  unfold pointer_matches, filter_matches, pointer_filter, matches_ignoring_time. cbn. rewrite orb_false_r.
  rewrite ?(seqb_sym (ep_id p) (ev_id e)). destruct (seqb (ev_id e) (ep_id p)); reflexivity.
Qed.
Print Assumptions C27_event_match.
(** The d tags of an event that carry a value. *)
Definition d_values (ts : list tag) : list str :=
  flat_map (fun t => match t with n :: v :: _ => if seqb n (B "d") then [v] else [] | _ => [] end) ts.
Lemma get_d_values ts : get_d ts = match d_values ts with v :: _ => v | [] => [] end.
Proof.
  induction ts as [|[|k [|v t]] ts IH]; cbn [get_d d_values flat_map]; auto. destruct (seqb k (B "d")); cbn [app]; [reflexivity|exact IH].
Qed.
Lemma contains_d_values ts x : contains_any ts (B "d") [x] = existsb (seqb x) (d_values ts).
Proof.
  induction ts as [|[|k [|v t]] ts IH]; cbn [contains_any d_values flat_map]; auto. destruct (seqb k (B "d")); cbn [app negb]; [|exact IH].
  cbn [existsb]. unfold smem. cbn [existsb]. rewrite ?orb_false_r, ?(seqb_sym v x). destruct (seqb x v); cbn [orb]; [reflexivity|exact IH].
Qed.
Lemma entity_filter p e : filter_matches (pointer_filter (PEntity p)) (Some e) =
  seqb (en_pubkey p) (ev_pubkey e) && Z.eqb (en_kind p) (ev_kind e) && existsb (seqb (en_identifier p)) (d_values (ev_tags e)).
Proof.
  unfold filter_matches, pointer_filter, matches_ignoring_time. cbn [f_ids f_kinds f_authors f_tags f_since f_until listed negb zmem smem].
  cbn [tags_loop]. rewrite contains_d_values. unfold smem, zmem. cbn [existsb]. rewrite ?orb_false_r.
  rewrite ?(seqb_sym (ev_pubkey e)), ?(Z.eqb_sym (ev_kind e)).
  destruct (Z.eqb (en_kind p) (ev_kind e)), (seqb (en_pubkey p) (ev_pubkey e)), (existsb _ _); reflexivity.
Qed.
(** Missing: events with no d tag or with several. *)
Theorem C27_entity_match_partial p e v : d_values (ev_tags e) = [v] -> pointer_matches (PEntity p) e = filter_matches (pointer_filter (PEntity p)) (Some e).
Proof.
  intro D. rewrite entity_filter, D. unfold pointer_matches. rewrite get_d_values, D. cbn [existsb]. rewrite orb_false_r, (seqb_sym (en_identifier p) v). reflexivity.
Qed.
Print Assumptions C27_entity_match_partial.
(** Exactly when the two disagree: kind and author are those of the pointer, and either there is no d tag and the identifier is empty,
    or the identifier is a d value but not the first. *)
Theorem C27_entity_match_exactly p e : pointer_matches (PEntity p) e <> filter_matches (pointer_filter (PEntity p)) (Some e) <->
  en_kind p = ev_kind e /\ en_pubkey p = ev_pubkey e /\
  ((d_values (ev_tags e) = [] /\ en_identifier p = []) \/ (exists v vs, d_values (ev_tags e) = v :: vs /\ v <> en_identifier p /\ In (en_identifier p) vs)).
Proof.
  rewrite entity_filter. unfold pointer_matches. rewrite get_d_values. destruct (seqb_spec (en_pubkey p) (ev_pubkey e)) as [P|P], (Z.eqb_spec (en_kind p) (ev_kind e)) as [K|K]; cbn [andb]; try (split; [congruence|tauto]).
  destruct (d_values (ev_tags e)) as [|v vs]; cbn [existsb].
  - rewrite (seqb_sym [] (en_identifier p)). destruct (seqb_spec (en_identifier p) []) as [E|E].
    + split; [intros _; tauto|discriminate].
    + split; [congruence|]. intros (_ & _ & [[_ Q]|(v & vs & Q & _)]); [destruct (E Q)|discriminate].
  - rewrite (seqb_sym v). destruct (seqb_spec (en_identifier p) v) as [E|E]; cbn [orb].
    + split; [congruence|]. intros (_ & _ & [[Q _]|(w & ws & Q & D & _)]); [discriminate|]. exfalso. apply D. congruence.
    + assert (F : existsb (seqb (en_identifier p)) vs = true <-> In (en_identifier p) vs).
      { rewrite existsb_exists. split; [intros (w & I & W); apply seqb_eq in W; subst w; exact I|]. intro I. exists (en_identifier p). split; [exact I|apply seqb_refl]. }
      destruct (existsb (seqb (en_identifier p)) vs); split; try congruence.
      * intros _. split; [exact K|]. split; [exact P|]. right. exists v, vs. split; [reflexivity|]. split; [congruence|]. apply F. reflexivity.
      * intros (_ & _ & [[Q _]|(w & ws & Q & D & I)]); [discriminate|]. assert (vs = ws) as <- by congruence. apply F in I. discriminate.
Qed.
Print Assumptions C27_entity_match_exactly.
(** Whatever the tags: a match is a filter match, unless the identifier is empty. *)
Theorem C27_entity_match_sound p e : en_identifier p <> [] -> pointer_matches (PEntity p) e = true -> filter_matches (pointer_filter (PEntity p)) (Some e) = true.
Proof.
  intros N. rewrite entity_filter. unfold pointer_matches. rewrite get_d_values, !andb_true_iff. intros [A D]. split; [exact A|].
  destruct (d_values (ev_tags e)) as [|v vs].
  - apply seqb_eq in D. congruence.
  - apply seqb_eq in D. subst v. cbn. rewrite seqb_refl. reflexivity.
Qed.
Print Assumptions C27_entity_match_sound.
Definition sample (ts : list tag) : event := mkEvent key1 key1 1 30000 ts [] [].
Example C27_match_example : d_values [[B "t"; B "x"]; [B "d"; B "y"]] = [B "y"] /\
  pointer_matches (PEntity (mkEntity key1 30000 (B "y") None)) (sample [[B "t"; B "x"]; [B "d"; B "y"]]) = true.
Proof. vm_compute. split; reflexivity. Qed.
Theorem C27_match_refuted :
  (exists p e, pointer_matches (PProfile p) e = false /\ filter_matches (pointer_filter (PProfile p)) (Some e) = true) /\
  (exists p e, pointer_matches (PEntity p) e = true /\ filter_matches (pointer_filter (PEntity p)) (Some e) = false) /\
  (exists p e, pointer_matches (PEntity p) e = false /\ filter_matches (pointer_filter (PEntity p)) (Some e) = true).
Proof.
  split; [|split].
  - exists (mkProfile key1 None), (sample []). split; vm_compute; reflexivity.
  - exists (mkEntity key1 30000 [] None), (sample []). split; vm_compute; reflexivity.
  - exists (mkEntity key1 30000 (B "b") None), (sample [[B "d"; B "a"]; [B "d"; B "b"]]). split; vm_compute; reflexivity.
Qed.
Print Assumptions C27_match_refuted.
