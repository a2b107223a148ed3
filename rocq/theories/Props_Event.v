(** C01-C06: event serialization, ids, signatures, kinds and order.
    The specification side uses only JsonSpec.v (the JSON reader), hexadecimal and
    ordinary mathematics. *)
From Verif Require Import Base JsonSpec EventModel EventProofs.

(** An event used in the examples: one tag, content with a quote and a line break. *)
Definition ex_event : event :=
  mkEvent [] (B "79be667ef9dcbbac55a06295ce870b07029bfcdb2dce28d959f2815b16f81798") 1700000000 1
    [[B "e"; B "ab"; B "wss://x"]; []] (B "he said ""hi""" ++ [byte_of 10]) [].

(** ** C01 *)
(** s contains neither the quote nor the backslash byte *)
Definition free_of_quotes (s : str) : Prop := ~ In quote s /\ ~ In bslash s.

Lemma free_no_quote s : free_of_quotes s -> no_quote s = true.
Proof.
  intros [H1 H2]. unfold no_quote. apply forallb_forall. intros c Hc.
  rewrite !ceqb_neq by (intros ->; contradiction). reflexivity.
Qed.

Definition same_signed_fields (a b : event) : Prop :=
  ev_pubkey a = ev_pubkey b /\ ev_created_at a = ev_created_at b /\ ev_kind a = ev_kind b /\
  ev_tags a = ev_tags b /\ ev_content a = ev_content b.

Theorem C01_serialize_unambiguous : forall e1 e2,
  free_of_quotes (ev_pubkey e1) -> free_of_quotes (ev_pubkey e2) ->
  (serialize e1 = serialize e2 <-> same_signed_fields e1 e2).
Proof.
  intros e1 e2 H1 H2. split.
  - apply serialize_inj; apply free_no_quote; assumption.
  - intros (A & B & C & D & E). apply serialize_ext; assumption.
Qed.
Print Assumptions C01_serialize_unambiguous.

(** Two events with one id are the same event, or a collision of the hash has been found. *)
Theorem C01_id_determines_event : forall sha256 e1 e2,
  free_of_quotes (ev_pubkey e1) -> free_of_quotes (ev_pubkey e2) ->
  get_id sha256 e1 = get_id sha256 e2 ->
  same_signed_fields e1 e2 \/ (exists m1 m2, m1 <> m2 /\ sha256 m1 = sha256 m2).
Proof.
  intros sha e1 e2 H1 H2 H. unfold get_id in H. apply hex_encode_inj in H.
  destruct (str_eq_dec (serialize e1) (serialize e2)) as [E|E].
  - left. apply C01_serialize_unambiguous; assumption.
  - right. eauto.
Qed.
Print Assumptions C01_id_determines_event.

Example C01_example : free_of_quotes (ev_pubkey ex_event) /\
  serialize ex_event =
  B "[0,""79be667ef9dcbbac55a06295ce870b07029bfcdb2dce28d959f2815b16f81798"",1700000000,1,[[""e"",""ab"",""wss://x""],[]],""he said \""hi\""\n""]".
Proof.
  split; [|vm_compute; reflexivity].
  split; intro H; apply (proj2 (smem_In [] [])) || idtac; vm_compute in H;
    repeat (destruct H as [H|H]; [discriminate H|]); exact H.
Qed.

(** ** C02 *)
(** a byte that a JSON string may contain as it is *)
Definition json_plain (s : str) : Prop := forall c, In c s -> c <> quote /\ c <> bslash /\ (32 <= val c)%N.

Theorem C02_serialize_is_nip01_json : forall e, json_plain (ev_pubkey e) ->
  json_parse (serialize e) =
  Some (JArr [ JNum (B "0"); JStr (ev_pubkey e);
               JNum (dec_Z (ev_created_at e)); JNum (dec_Z (ev_kind e));
               JArr (map (fun t => JArr (map JStr t)) (ev_tags e));
               JStr (ev_content e) ]).
Proof.
  intros e H. apply serialize_parse. apply forallb_forall. intros c Hc.
  destruct (H c Hc) as (H1 & H2 & H3). unfold plain_char.
  rewrite !ceqb_neq by assumption. cbn [negb andb]. lia.
Qed.
Print Assumptions C02_serialize_is_nip01_json.

(** [dec_Z] is the decimal text of the number: reading it back gives the number. *)
Theorem C02_numbers_read_back : forall z, (min_int64 <= z <= max_int64)%Z -> parse_int (dec_Z z) = Some z.
Proof. exact parse_int_dec_Z. Qed.
Print Assumptions C02_numbers_read_back.

Example C02_example : json_parse (serialize ex_event) =
  Some (JArr [JNum (B "0"); JStr (ev_pubkey ex_event); JNum (B "1700000000"); JNum (B "1");
     JArr [JArr [JStr (B "e"); JStr (B "ab"); JStr (B "wss://x")]; JArr []]; JStr (ev_content ex_event)]).
Proof. vm_compute. reflexivity. Qed.

(** The escapes are those NIP-01 lists; other control bytes are written in the only way JSON allows, everything else as it is. *)
Definition nip01_escapes : list (N * str) :=
  [(0x0A, B "\n"); (0x22, B "\"""); (0x5C, B "\\"); (0x0D, B "\r"); (0x09, B "\t"); (0x08, B "\b"); (0x0C, B "\f")]%N.
Definition hex_lower (n : N) : ascii := nth (N.to_nat n) (B "0123456789abcdef") "?"%char.
Definition nip01_text (c : ascii) : str :=
  match find (fun p => N.eqb (fst p) (val c)) nip01_escapes with
  | Some (_, t) => t
  | None => if (0x20 <=? val c)%N then [c] else B "\u00" ++ [hex_lower (val c / 16); hex_lower (val c mod 16)]
  end.
Theorem C02_escapes_of_nip01 : forall s, escape_string s = [quote] ++ concat (map nip01_text s) ++ [quote].
Proof.
  intro s. unfold escape_string. rewrite flat_map_concat_map.
  assert (G : forall c, seqb (escape_char c) (nip01_text c) = true) by (apply bytes_forallb; vm_compute; reflexivity).
  assert (E : map escape_char s = map nip01_text s) by (apply map_ext; intro c; apply seqb_eq, G).
  replace (concat (map nip01_text s)) with (concat (map escape_char s)) by (f_equal; exact E). reflexivity.
Qed.
Print Assumptions C02_escapes_of_nip01.

(** Without the hypothesis the text need not be JSON at all. *)
Theorem C02_unescaped_pubkey_refuted : exists e, json_parse (serialize e) = None.
Proof. exists (mkEvent [] [quote] 0 0 [] [] []). vm_compute. reflexivity. Qed.
Print Assumptions C02_unescaped_pubkey_refuted.

(** ** C03 *)
Theorem C03_check_id_exact : forall (sha256 : str -> str) e, (forall m, length (sha256 m) = 32) ->
  (check_id sha256 e = true <-> ev_id e = hex_encode (sha256 (serialize e))).
Proof. exact check_id_spec. Qed.
Print Assumptions C03_check_id_exact.

(** [hex_encode] really is 64 lowercase hex digits denoting the hash. *)
Theorem C03_id_shape : forall (sha256 : str -> str) e, (forall m, length (sha256 m) = 32) ->
  check_id sha256 e = true ->
  length (ev_id e) = 64 /\ forallb is_lower_hex_char (ev_id e) = true /\
  hex_decode (ev_id e) = Some (sha256 (serialize e)).
Proof.
  intros sha e Hs H. apply C03_check_id_exact in H; [|exact Hs]. rewrite H.
  rewrite hex_encode_length, Hs, hex_encode_lower, hex_decode_encode. auto.
Qed.
Print Assumptions C03_id_shape.

(** a toy hash with 32-byte output *)
Definition toy_hash (m : str) : str := firstn 32 (m ++ repeat (byte_of 7) 32).
Lemma toy_hash_len m : length (toy_hash m) = 32.
Proof. unfold toy_hash. rewrite firstn_length, app_length, repeat_length. lia. Qed.

Example C03_example :
  check_id toy_hash (mkEvent (hex_encode (toy_hash (serialize ex_event))) (ev_pubkey ex_event) 1700000000 1
     (ev_tags ex_event) (ev_content ex_event) []) = true /\
  check_id toy_hash ex_event = false.
Proof. vm_compute. split; reflexivity. Qed.

(** ** C04 *)
(** The one law asked of the signature scheme: a signature made with a secret key parses, the
    public key parses, and the signature verifies for the signed hash. *)
Definition honest_signatures_verify {PK SG} (parse_pubkey : str -> option PK) (parse_sig : str -> option SG)
  (verify : SG -> str -> PK -> bool) (pub_compressed : str -> str) (schnorr_sign : str -> str -> option str) : Prop :=
  forall s h sg, schnorr_sign s h = Some sg ->
    exists pk sig, parse_pubkey (skipn 1 (pub_compressed s)) = Some pk /\ parse_sig sg = Some sig /\
                   verify sig h pk = true.

Definition with_id (id : str) (e : event) : event :=
  mkEvent id (ev_pubkey e) (ev_created_at e) (ev_kind e) (ev_tags e) (ev_content e) (ev_sig e).

Theorem C04_signed_event_verifies :
  forall sha256 PK SG (parse_pubkey : str -> option PK) (parse_sig : str -> option SG)
    verify pub_compressed schnorr_sign,
  (forall m, length (sha256 m) = 32) ->
  honest_signatures_verify parse_pubkey parse_sig verify pub_compressed schnorr_sign ->
  forall sk e e', sign sha256 pub_compressed schnorr_sign sk e = Ok e' ->
  get_public_key pub_compressed sk = Ok (ev_pubkey e') /\
  check_id sha256 e' = true /\
  (forall id, check_signature sha256 PK SG parse_pubkey parse_sig verify (with_id id e') = Ok true) /\
  check_signature sha256 PK SG parse_pubkey parse_sig verify e' = Ok true /\
  ev_content e' = ev_content e /\ ev_kind e' = ev_kind e /\ ev_created_at e' = ev_created_at e /\
  ev_tags e' = ev_tags e.
Proof. exact sign_verifies. Qed.
Print Assumptions C04_signed_event_verifies.

(** CheckSignature accepts only if the scheme's verification accepts the recomputed hash. *)
Theorem C04_check_signature_sound :
  forall sha256 PK SG (parse_pubkey : str -> option PK) (parse_sig : str -> option SG) verify e,
  check_signature sha256 PK SG parse_pubkey parse_sig verify e = Ok true ->
  exists pkb pk sgb sg, hex_decode (ev_pubkey e) = Some pkb /\ parse_pubkey pkb = Some pk /\
    hex_decode (ev_sig e) = Some sgb /\ parse_sig sgb = Some sg /\
    verify sg (sha256 (serialize e)) pk = true.
Proof.
  intros sha PK SG pp ps v e H. unfold check_signature in H.
  destruct (hex_decode (ev_pubkey e)) as [pkb|]; [|discriminate].
  destruct (pp pkb) as [pk|] eqn:E1; [|discriminate].
  destruct (hex_decode (ev_sig e)) as [sgb|]; [|discriminate].
  destruct (ps sgb) as [sg|] eqn:E2; [|discriminate].
  injection H as H. exists pkb, pk, sgb, sg. auto.
Qed.
Print Assumptions C04_check_signature_sound.

(** A toy scheme meeting the law: the signature is the secret followed by the hash. *)
Example C04_example :
  let pub s := byte_of 2 :: s in
  let sgn (s h : str) := Some (s ++ h) in
  let par (x : str) := Some x in
  let ver (sg h pk : str) := seqb sg (pk ++ h) in
  honest_signatures_verify par par ver pub sgn /\
  exists e', sign toy_hash pub sgn (B "0aff") ex_event = Ok e' /\ ev_pubkey e' = B "0aff" /\
    check_signature toy_hash str str par par ver e' = Ok true /\
    check_signature toy_hash str str par par ver
      (mkEvent (ev_id e') (ev_pubkey e') 5 (ev_kind e') (ev_tags e') (ev_content e') (ev_sig e')) = Ok false.
Proof.
  cbv zeta. split.
  - intros s h sg H. injection H as <-. exists s, (s ++ h). repeat split. apply seqb_refl.
  - eexists. split; [reflexivity|]. vm_compute. repeat split; reflexivity.
Qed.

(** ** C05 *)
(** NIP-01's ranges, as propositions. *)
Definition nip01_replaceable (k : Z) : Prop := (k = 0 \/ k = 3 \/ 10000 <= k <= 19999)%Z.
Definition nip01_ephemeral (k : Z) : Prop := (20000 <= k <= 29999)%Z.
Definition nip01_addressable (k : Z) : Prop := (30000 <= k <= 39999)%Z.
Definition nip01_regular (k : Z) : Prop := (k < 10000 /\ k <> 0 /\ k <> 3)%Z.

Theorem C05_kind_classes : forall k,
  (is_replaceable_kind k = true <-> nip01_replaceable k) /\
  (is_ephemeral_kind k = true <-> nip01_ephemeral k) /\
  (is_addressable_kind k = true <-> nip01_addressable k) /\
  (is_regular_kind k = true <-> nip01_regular k).
Proof.
  intro k. unfold is_replaceable_kind, is_ephemeral_kind, is_addressable_kind, is_regular_kind,
    nip01_replaceable, nip01_ephemeral, nip01_addressable, nip01_regular.
  repeat split; lia.
Qed.
Print Assumptions C05_kind_classes.

(** how many of the four predicates hold *)
Definition class_count (k : Z) : nat :=
  length (filter (fun b : bool => b)
    [is_regular_kind k; is_replaceable_kind k; is_ephemeral_kind k; is_addressable_kind k]).

Theorem C05_kind_classes_disjoint : forall k,
  class_count k <= 1 /\ ((k < 40000)%Z -> class_count k = 1) /\ ((40000 <= k)%Z -> class_count k = 0).
Proof.
  intro k. destruct (C05_kind_classes k) as (H1 & H2 & H3 & H4).
  unfold nip01_replaceable, nip01_ephemeral, nip01_addressable, nip01_regular in *.
  unfold class_count.
  destruct (is_regular_kind k), (is_replaceable_kind k), (is_ephemeral_kind k), (is_addressable_kind k);
    cbn [filter length]; lia.
Qed.
Print Assumptions C05_kind_classes_disjoint.

Example C05_example : map class_count [-1; 0; 1; 3; 9999; 10000; 19999; 20000; 30023; 39999; 40000]%Z
  = [1;1;1;1;1;1;1;1;1;1;0].
Proof. vm_compute. reflexivity. Qed.

(** ** C06 *)
(** the mathematical order: created_at first, id second *)
Definition precedes (a b : event) : Prop :=
  (ev_created_at a < ev_created_at b)%Z \/
  (ev_created_at a = ev_created_at b /\ scmp (ev_id a) (ev_id b) = Lt).

Theorem C06_compare_event_order : forall a b c,
  compare_event a a = 0%Z /\
  (compare_event a b < 0 <-> precedes a b)%Z /\
  (compare_event a b > 0 <-> precedes b a)%Z /\
  (compare_event a b = 0 <-> ev_created_at a = ev_created_at b /\ ev_id a = ev_id b)%Z /\
  compare_event b a = (- compare_event a b)%Z /\
  (precedes a b -> precedes b c -> precedes a c) /\
  (compare_event a b <= 0 -> compare_event b c <= 0 -> compare_event a c <= 0)%Z.
Proof.
  intros a b c.
  assert (HL : forall a b, ev_cmp a b = Lt <-> precedes a b).
  { clear. intros a b. unfold ev_cmp, precedes.
    destruct (Z.compare_spec (ev_created_at a) (ev_created_at b)) as [E|E|E]; split; intro H;
      try discriminate; try lia; try tauto; try (destruct H as [H|[H H2]]; [lia|]; (exact H2 || lia)). }
  assert (HG : ev_cmp a b = Gt <-> precedes b a).
  { rewrite <- HL, (ev_cmp_antisym a b). destruct (ev_cmp a b); cbn; split; congruence. }
  split; [rewrite compare_event_cmp, (proj2 (ev_cmp_eq a a)) by auto; reflexivity|].
  split; [rewrite <- HL, compare_event_cmp; destruct (ev_cmp a b); cbn; split; intro; try lia; congruence|].
  split; [rewrite <- HG, compare_event_cmp; destruct (ev_cmp a b); cbn; split; intro; try lia; congruence|].
  split; [rewrite <- ev_cmp_eq, compare_event_cmp; destruct (ev_cmp a b); cbn; split; intro; try lia; congruence|].
  split; [rewrite !compare_event_cmp, (ev_cmp_antisym a b), cmp_int_opp; reflexivity|].
  split; [rewrite <- !HL; apply ev_cmp_lt_trans|apply ev_le_trans].
Qed.
Print Assumptions C06_compare_event_order.

Theorem C06_reverse_and_pointers : forall a b,
  compare_event_reverse a b = (- compare_event a b)%Z /\
  compare_event_ptr (Some a) (Some b) = compare_event a b /\
  compare_event_ptr_reverse (Some a) (Some b) = compare_event_reverse a b /\
  compare_event_ptr None None = 0%Z /\ (compare_event_ptr None (Some a) < 0)%Z /\ (compare_event_ptr (Some a) None > 0)%Z /\
  compare_event_ptr_reverse None None = 0%Z /\ (compare_event_ptr_reverse None (Some a) > 0)%Z /\
  (compare_event_ptr_reverse (Some a) None < 0)%Z.
Proof.
  intros a b. repeat split; try reflexivity.
  change (compare_event_reverse a b) with (compare_event b a).
  apply (C06_compare_event_order a b a).
Qed.
Print Assumptions C06_reverse_and_pointers.

(** Any two sorted arrangements of the same events (distinct ids) are the same list. *)
Theorem C06_sorting_is_unique : forall l l',
  StronglySorted (fun a b => compare_event a b <= 0)%Z l ->
  StronglySorted (fun a b => compare_event a b <= 0)%Z l' ->
  Permutation l l' -> NoDup (map ev_id l) -> l = l'.
Proof. exact sorted_perm_unique. Qed.
Print Assumptions C06_sorting_is_unique.

Definition ex_at (t : Z) (id : str) : event := mkEvent id [] t 1 [] [] [].
Example C06_example :
  StronglySorted (fun a b => compare_event a b <= 0)%Z [ex_at 1 (B "b"); ex_at 2 (B "a"); ex_at 2 (B "ab")] /\
  NoDup (map ev_id [ex_at 1 (B "b"); ex_at 2 (B "a"); ex_at 2 (B "ab")]) /\
  compare_event_reverse (ex_at 2 (B "a")) (ex_at 2 (B "ab")) = 1%Z.
Proof.
  repeat split; try reflexivity.
  - repeat constructor; vm_compute; discriminate.
  - repeat constructor; cbn; intro H; repeat (destruct H as [H|H]; [discriminate|]); exact H.
Qed.
