(** NIP-19 codes: /repo/nip19. Pointers: /repo/pointers.go. *)
From Verif Require Import Base EventModel TagsModel FilterModel Bech32Model.
Local Open Scope N_scope.

(** pointers.go:32-35, 68-73, 115-120. Relays: None is the nil slice. *)
Record profile_pointer := mkProfile { pp_pubkey : str; pp_relays : option (list str) }.
Record event_pointer := mkEventPtr { ep_id : str; ep_relays : option (list str); ep_author : str; ep_kind : Z }.
Record entity_pointer := mkEntity { en_pubkey : str; en_kind : Z; en_identifier : str; en_relays : option (list str) }.
Inductive pointer := PProfile (p : profile_pointer) | PEvent (p : event_pointer) | PEntity (p : entity_pointer).

(** append to a possibly nil slice *)
Definition snoc {A} (o : option (list A)) (x : A) : option (list A) :=
  match o with Some l => Some (l ++ [x]) | None => Some [x] end.
Definition items {A} (o : option (list A)) : list A := match o with Some l => l | None => [] end.

(** hex.DecodeString: the bytes decoded before the first bad digit or the odd end are returned next to the error *)
Fixpoint hex_prefix (s : str) : str :=
  match s with
  | a :: b :: r => match hex_val a, hex_val b with Some x, Some y => byte_of (16 * x + y) :: hex_prefix r | _, _ => [] end
  | _ => []
  end.

(** nip19/helpers.go:7-12 *)
Definition TLVDefault : N := 0.
Definition TLVRelay : N := 1.
Definition TLVAuthor : N := 2.
Definition TLVKind : N := 3.
(** nip19/helpers.go:14-27; None when the value is nil *)
Definition read_tlv (data : str) : option (N * str) :=
  match data with
  | t :: n :: r => if Nat.ltb (length r) (N.to_nat (val n)) then None else Some (val t, firstn (N.to_nat (val n)) r)
  | _ => None
  end.
(** nip19/helpers.go:29-34: the length byte is uint8(len(value)) *)
Definition write_tlv (t : N) (v : str) : str := byte_of t :: byte_of (N.of_nat (length v)) :: v.

(** The loop of nip19/nip19.go:34-58, 62-96 and 100-128: one entry at a time, until the entry is nil. [fuel]: an entry takes at
    least two bytes. *)
Fixpoint tlv_loop {A} (fuel : nat) (step : N -> str -> A -> outcome A) (data : str) (a : A) : outcome A :=
  match read_tlv data with
  | None => Ok a
  | Some (t, v) =>
    obind (step t v a) (fun a' =>
      match fuel with
      | O => Err
      | S f => tlv_loop f step (skipn (2 + length v) data) a'
      end)
  end.

(** nip19/nip19.go:45-55 *)
Definition profile_entry (t : N) (v : str) (p : profile_pointer) : outcome profile_pointer :=
  if t =? TLVDefault then
    if negb (Nat.eqb (length v) 32) then Err else Ok (mkProfile (hex_encode v) (pp_relays p))
  else if t =? TLVRelay then Ok (mkProfile (pp_pubkey p) (snoc (pp_relays p) v))
  else Ok p.
(** binary.BigEndian.Uint32 indexes byte 3 *)
Definition be32 (v : str) : outcome Z :=
  match v with
  | a :: b :: c :: d :: _ => Ok (Z.of_N (val a * 16777216 + val b * 65536 + val c * 256 + val d))
  | _ => Panic
  end.
Definition put_be32 (z : Z) : str :=
  let n := Z.to_N (z mod 4294967296)%Z in
  [byte_of (n / 16777216); byte_of (n / 65536 mod 256); byte_of (n / 256 mod 256); byte_of (n mod 256)].
(** nip19/nip19.go:73-93 *)
Definition event_entry (t : N) (v : str) (p : event_pointer) : outcome event_pointer :=
  if t =? TLVDefault then
    if negb (Nat.eqb (length v) 32) then Err else Ok (mkEventPtr (hex_encode v) (ep_relays p) (ep_author p) (ep_kind p))
  else if t =? TLVRelay then Ok (mkEventPtr (ep_id p) (snoc (ep_relays p) v) (ep_author p) (ep_kind p))
  else if t =? TLVAuthor then
    if negb (Nat.eqb (length v) 32) then Err else Ok (mkEventPtr (ep_id p) (ep_relays p) (hex_encode v) (ep_kind p))
  else if t =? TLVKind then
    if negb (Nat.eqb (length v) 4) then Err else obind (be32 v) (fun k => Ok (mkEventPtr (ep_id p) (ep_relays p) (ep_author p) k))
  else Ok p.
(** nip19/nip19.go:111-125; binary.BigEndian.Uint32(v) without a length check *)
Definition entity_entry (t : N) (v : str) (p : entity_pointer) : outcome entity_pointer :=
  if t =? TLVDefault then Ok (mkEntity (en_pubkey p) (en_kind p) v (en_relays p))
  else if t =? TLVRelay then Ok (mkEntity (en_pubkey p) (en_kind p) (en_identifier p) (snoc (en_relays p) v))
  else if t =? TLVAuthor then
    if negb (Nat.eqb (length v) 32) then Err else Ok (mkEntity (hex_encode v) (en_kind p) (en_identifier p) (en_relays p))
  else if t =? TLVKind then obind (be32 v) (fun k => Ok (mkEntity (en_pubkey p) k (en_identifier p) (en_relays p)))
  else Ok p.

Definition bytes_of (l : list N) : str := map byte_of l.
Definition nums_of (s : str) : list N := map val s.
Definition empty (s : str) : bool := match s with [] => true | _ => false end.

Inductive code := KHex (s : str) | KPtr (p : pointer).
(** nip19/nip19.go:13-132 *)
Definition nip19_decode (s : str) : outcome (str * code) :=
  obind (decode s) (fun hd =>
    let '(prefix, bits5) := hd in
    obind (convert_bits bits5 5 8 false) (fun nums =>
      let data := bytes_of nums in
      if seqb prefix (B "npub") || seqb prefix (B "nsec") || seqb prefix (B "note") then
        if negb (Nat.eqb (length data) 32) then Err else Ok (prefix, KHex (hex_encode data))
      else if seqb prefix (B "nprofile") then
        obind (tlv_loop (length data) profile_entry data (mkProfile [] None)) (fun p =>
          if empty (pp_pubkey p) then Err else Ok (prefix, KPtr (PProfile p)))
      else if seqb prefix (B "nevent") then
        obind (tlv_loop (length data) event_entry data (mkEventPtr [] None [] 0)) (fun p =>
          if empty (ep_id p) then Err else Ok (prefix, KPtr (PEvent p)))
      else if seqb prefix (B "naddr") then
        obind (tlv_loop (length data) entity_entry data (mkEntity [] 0 [] None)) (fun p =>
          if Z.eqb (en_kind p) 0 || empty (en_identifier p) || empty (en_pubkey p) then Err else Ok (prefix, KPtr (PEntity p)))
      else Err)).

(** bytes to code: ConvertBits(b, 8, 5, true) and bech32.Encode *)
Definition to_code (prefix data : str) : outcome str := obind (convert_bits (nums_of data) 8 5 true) (fun bits5 => encode prefix bits5).
Definition from_hex (s : str) : outcome str := match hex_decode s with Some b => Ok b | None => Err end.
(** nip19/nip19.go:134-174: EncodePrivateKey, EncodePublicKey, EncodeNote *)
Definition encode_hex (prefix s : str) : outcome str := obind (from_hex s) (to_code prefix).
Definition encode_private_key := encode_hex (B "nsec").
Definition encode_public_key := encode_hex (B "npub").
Definition encode_note := encode_hex (B "note").
Definition relay_entries (relays : list str) : str := flat_map (write_tlv TLVRelay) relays.
(** nip19/nip19.go:176-194 *)
Definition encode_profile (pk : str) (relays : list str) : outcome str :=
  obind (from_hex pk) (fun b => to_code (B "nprofile") (write_tlv TLVDefault b ++ relay_entries relays)).
(** nip19/nip19.go:196-218 *)
Definition encode_event_ptr (id : str) (relays : list str) (author : str) : outcome str :=
  obind (from_hex id) (fun b =>
    if negb (Nat.eqb (length b) 32) then Err
    else to_code (B "nevent") (write_tlv TLVDefault b ++ relay_entries relays ++
      (if Nat.eqb (length (hex_prefix author)) 32 then write_tlv TLVAuthor (hex_prefix author) else []))).
(** nip19/nip19.go:220-245 *)
Definition encode_entity (pk : str) (kind : Z) (identifier : str) (relays : list str) : outcome str :=
  obind (from_hex pk) (fun b =>
    to_code (B "naddr") (write_tlv TLVDefault identifier ++ relay_entries relays ++ write_tlv TLVAuthor b ++ write_tlv TLVKind (put_be32 kind))).

Definition or_empty (o : outcome str) : str := match o with Ok s => s | _ => [] end.
(** nip19/pointer.go:9-27 *)
Definition encode_pointer (p : pointer) : str :=
  match p with
  | PProfile v => match pp_relays v with None => or_empty (encode_public_key (pp_pubkey v)) | Some l => or_empty (encode_profile (pp_pubkey v) l) end
  | PEvent v => or_empty (encode_event_ptr (ep_id v) (items (ep_relays v)) (ep_author v))
  | PEntity v => or_empty (encode_entity (en_pubkey v) (en_kind v) (en_identifier v) (items (en_relays v)))
  end.
(** nip19/pointer.go:29-49 *)
Definition to_pointer (s : str) : outcome pointer :=
  obind (nip19_decode s) (fun r =>
    match r with
    | (prefix, KHex h) =>
      if seqb prefix (B "npub") then Ok (PProfile (mkProfile h None))
      else if seqb prefix (B "note") then Ok (PEvent (mkEventPtr h None [] 0))
      else Err
    | (_, KPtr p) => Ok p
    end).

(** ** Pointers and tags. Section variables: schnorr.ParsePubKey on the decoded key, and IsValidRelayURL (net/url). *)
Section Tags.
  Variable parse_ok : str -> bool.
  Variable relay_ok : str -> bool.
  (** keys.go:41-49, helpers.go:111-119 *)
  Definition valid_pubkey (s : str) : bool := forallb is_lower_hex_char s && parse_ok (hex_prefix s).
  (** utils.go:23-32 *)
  Definition valid_32byte_hex (s : str) : bool :=
    forallb is_lower_hex_char s && Nat.eqb (length s) 64 && match hex_decode s with Some _ => true | None => false end.

  (** refTag[i] *)
  Definition at_ (t : tag) (i : nat) : outcome str := match nth_error t i with Some s => Ok s | None => Panic end.
  Definition relay_of (t : tag) : option (list str) :=
    match nth_error t 2 with Some r => if relay_ok r then Some [r] else None | None => None end.

  (** pointers.go:38-53 *)
  Definition profile_from_tag (t : tag) : outcome profile_pointer :=
    obind (at_ t 1) (fun pk => if negb (valid_pubkey pk) then Err else Ok (mkProfile pk (relay_of t))).
  (** pointers.go:60-65 *)
  Definition profile_as_tag (p : profile_pointer) : tag :=
    match items (pp_relays p) with r :: _ => [B "p"; pp_pubkey p; r] | [] => [B "p"; pp_pubkey p] end.

  (** pointers.go:76-96 *)
  Definition event_ptr_from_tag (t : tag) : outcome event_pointer :=
    obind (at_ t 1) (fun id =>
      if negb (valid_32byte_hex id) then Err
      else
        let author :=
          match nth_error t 3 with
          | Some a => if valid_pubkey a then a
                      else match nth_error t 4 with Some b => if valid_pubkey b then b else [] | None => [] end
          | None => []
          end in
        Ok (mkEventPtr id (relay_of t) author 0)).
  (** pointers.go:103-112 *)
  Definition event_ptr_as_tag (p : event_pointer) : tag :=
    match items (ep_relays p) with
    | r :: _ => if empty (ep_author p) then [B "e"; ep_id p; r] else [B "e"; ep_id p; r; ep_author p]
    | [] => [B "e"; ep_id p]
    end.

  (** strings.SplitN(s, ":", 3) when it has three parts *)
  Fixpoint cut (c : ascii) (s : str) : option (str * str) :=
    match s with [] => None | x :: r => if ceqb x c then Some ([], r) else match cut c r with Some (a, b) => Some (x :: a, b) | None => None end end.
  Definition split3 (s : str) : option (str * str * str) :=
    match cut ":"%char s with
    | None => None
    | Some (a, r) => match cut ":"%char r with None => None | Some (b, c) => Some (a, b, c) end
    end.
  (** pointers.go:123-149 *)
  Definition entity_from_tag (t : tag) : outcome entity_pointer :=
    obind (at_ t 1) (fun s =>
      match split3 s with
      | None => Err
      | Some (k, pk, id) =>
        if negb (valid_pubkey pk) then Err
        else match parse_int k with
             | None => Err
             | Some kind => if (65536 <? kind)%Z then Err else Ok (mkEntity pk kind id (relay_of t))
             end
      end).
  (** pointers.go:158-160 *)
  Definition entity_ref (p : entity_pointer) : str := dec_Z (en_kind p) ++ ":"%char :: en_pubkey p ++ ":"%char :: en_identifier p.
  (** pointers.go:170-175 *)
  Definition entity_as_tag (p : entity_pointer) : tag :=
    match items (en_relays p) with r :: _ => [B "a"; entity_ref p; r] | [] => [B "a"; entity_ref p] end.

  (** pointers.go:56-58, 98-100, 152-156, 162-168 *)
  Definition pointer_matches (p : pointer) (e : event) : bool :=
    match p with
    | PProfile _ => false
    | PEvent v => seqb (ev_id e) (ep_id v)
    | PEntity v => seqb (en_pubkey v) (ev_pubkey e) && Z.eqb (en_kind v) (ev_kind e) && seqb (get_d (ev_tags e)) (en_identifier v)
    end.
  Definition pointer_filter (p : pointer) : nfilter :=
    match p with
    | PProfile v => mkFilter None None (Some [pp_pubkey v]) [] None None 0 [] false
    | PEvent v => mkFilter (Some [ep_id v]) None None [] None None 0 [] false
    | PEntity v => mkFilter None (Some [en_kind v]) (Some [en_pubkey v]) [(B "d", Some [en_identifier v])] None None 0 [] false
    end.
End Tags.
