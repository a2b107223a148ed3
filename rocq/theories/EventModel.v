(** Events: /repo/event.go, /repo/helpers.go:54-90, /repo/signature.go, /repo/keys.go,
    /repo/kinds.go:138-152, /repo/utils.go:34-84. *)
From Verif Require Import Base JsonSpec.

(** event.go:12-20. Tags: a nil list and an empty one are not told apart; created_at (int64)
    and kind (int, 64 bits) are unbounded integers here, range hypotheses appear
    where a Go conversion depends on them. *)
Definition tag := list str.
Record event := mkEvent {
  ev_id : str;
  ev_pubkey : str;
  ev_created_at : Z;
  ev_kind : Z;
  ev_tags : list tag;
  ev_content : str;
  ev_sig : str
}.

(** helpers.go:58-86: the switch in escapeString, one byte. *)
Definition escape_char (c : ascii) : str :=
  let n := val c in
  (if ceqb c quote then [bslash; quote]
   else if ceqb c bslash then [bslash; bslash]
   else if 0x20 <=? n then [c]
   else if n =? 0x08 then [bslash; "b"%char]
   else if n <? 0x09 then [bslash; "u"; "0"; "0"; "0"; byte_of (48 + n)]%char
   else if n =? 0x09 then [bslash; "t"%char]
   else if n =? 0x0a then [bslash; "n"%char]
   else if n =? 0x0c then [bslash; "f"%char]
   else if n =? 0x0d then [bslash; "r"%char]
   else if n <? 0x10 then [bslash; "u"; "0"; "0"; "0"; byte_of (0x57 + n)]%char
   else if n <? 0x1a then [bslash; "u"; "0"; "0"; "1"; byte_of (0x20 + n)]%char
   else [bslash; "u"; "0"; "0"; "1"; byte_of (0x47 + n)]%char)%N.

(** helpers.go:54-90 *)
Definition escape_string (s : str) : str := quote :: flat_map escape_char s ++ [quote].

(** The "if i > 0 append ','" loops of event.go:81-95. *)
Fixpoint comma_sep (l : list str) : str :=
  match l with
  | [] => []
  | [x] => x
  | x :: l' => x ++ ","%char :: comma_sep l'
  end.

(** event.go:86-94 *)
Definition serialize_tag (t : tag) : str :=
  "["%char :: comma_sep (map escape_string t) ++ ["]"%char].

(** event.go:68-102 (serializeEventInto), event.go:61-66 (Serialize) *)
Definition serialize (e : event) : str :=
  B "[0," ++ [quote] ++ ev_pubkey e ++ [quote] ++ B "," ++
  dec_Z (ev_created_at e) ++ B "," ++
  dec_Z (ev_kind e) ++ B "," ++
  B "[" ++ comma_sep (map serialize_tag (ev_tags e)) ++ B "]," ++
  escape_string (ev_content e) ++ B "]".

(** Cryptography is external (crypto/sha256, btcec): it enters as parameters. *)
Section Crypto.
  Variable sha256 : str -> str.

  (** event.go:28-31 *)
  Definition get_id (e : event) : str := hex_encode (sha256 (serialize e)).

  (** event.go:43-55: the loop over i = 0..31 comparing hextable[h[i]>>4] with id[2i] and
      hextable[h[i]&15] with id[2i+1]. Running out of id characters would be an index panic
      in Go; the length test at line 35 excludes it. *)
  Fixpoint check_id_loop (h : str) (id : str) : bool :=
    match h with
    | [] => true
    | b :: h' =>
      match id with
      | x :: y :: id' =>
        if negb (ceqb (hex_digit (val b / 16)) x) then false
        else if negb (ceqb (hex_digit (val b mod 16)) y) then false
        else check_id_loop h' id'
      | _ => false
      end
    end.

  (** event.go:34-58 *)
  Definition check_id (e : event) : bool :=
    if negb (Nat.eqb (length (ev_id e)) 64) then false
    else check_id_loop (sha256 (serialize e)) (ev_id e).

  (** schnorr.ParsePubKey, schnorr.ParseSignature, Signature.Verify *)
  Variables PK SG : Type.
  Variable parse_pubkey : str -> option PK.
  Variable parse_sig : str -> option SG.
  Variable verify : SG -> str -> PK -> bool.
  (** btcec.PrivKeyFromBytes then SerializeCompressed; schnorr.Sign then Serialize *)
  Variable pub_compressed : str -> str.
  Variable schnorr_sign : str -> str -> option str.

  (** signature.go:17-42; Err is a non-nil error (the bool is false then) *)
  Definition check_signature (e : event) : outcome bool :=
    match hex_decode (ev_pubkey e) with
    | None => Err
    | Some pkb =>
      match parse_pubkey pkb with
      | None => Err
      | Some pk =>
        match hex_decode (ev_sig e) with
        | None => Err
        | Some sb =>
          match parse_sig sb with
          | None => Err
          | Some sg => Ok (verify sg (sha256 (serialize e)) pk)
          end
        end
      end
    end.

  (** signature.go:47-71 *)
  Definition sign (sk : str) (e : event) : outcome event :=
    match hex_decode sk with
    | None => Err
    | Some s =>
      let pk := hex_encode (skipn 1 (pub_compressed s)) in
      let e1 := mkEvent (ev_id e) pk (ev_created_at e) (ev_kind e) (ev_tags e) (ev_content e) (ev_sig e) in
      let h := sha256 (serialize e1) in
      match schnorr_sign s h with
      | None => Err
      | Some sg => Ok (mkEvent (hex_encode h) pk (ev_created_at e) (ev_kind e) (ev_tags e) (ev_content e)
                         (hex_encode sg))
      end
    end.

  (** keys.go:31-39 (schnorr.SerializePubKey is the compressed key without its first byte) *)
  Definition get_public_key (sk : str) : outcome str :=
    match hex_decode sk with
    | None => Err
    | Some s => Ok (hex_encode (skipn 1 (pub_compressed s)))
    end.
End Crypto.

(** kinds.go:138-152 *)
Definition is_regular_kind (k : Z) : bool := ((k <? 10000) && negb (k =? 0) && negb (k =? 3))%Z.
Definition is_replaceable_kind (k : Z) : bool :=
  ((k =? 0) || (k =? 3) || ((10000 <=? k) && (k <? 20000)))%Z.
Definition is_ephemeral_kind (k : Z) : bool := ((20000 <=? k) && (k <? 30000))%Z.
Definition is_addressable_kind (k : Z) : bool := ((30000 <=? k) && (k <? 40000))%Z.

(** Go's negative / zero / positive results. *)
Definition cmp_int (c : comparison) : Z := match c with Lt => -1 | Eq => 0 | Gt => 1 end.

(** utils.go:35-40 *)
Definition compare_event (a b : event) : Z :=
  if (ev_created_at a =? ev_created_at b)%Z then cmp_int (scmp (ev_id a) (ev_id b))
  else cmp_int (Z.compare (ev_created_at a) (ev_created_at b)).

(** utils.go:43-48: parameters are named (b, a) *)
Definition compare_event_reverse (b a : event) : Z :=
  if (ev_created_at a =? ev_created_at b)%Z then cmp_int (scmp (ev_id a) (ev_id b))
  else cmp_int (Z.compare (ev_created_at a) (ev_created_at b)).

(** utils.go:51-66 *)
Definition compare_event_ptr (a b : option event) : Z :=
  match a, b with
  | None, None => 0
  | None, Some _ => -1
  | Some _, None => 1
  | Some a, Some b =>
    if (ev_created_at a =? ev_created_at b)%Z then cmp_int (scmp (ev_id a) (ev_id b))
    else cmp_int (Z.compare (ev_created_at a) (ev_created_at b))
  end.

(** utils.go:69-84: parameters are named (b, a) *)
Definition compare_event_ptr_reverse (b a : option event) : Z :=
  match a, b with
  | None, None => 0
  | None, Some _ => -1
  | Some _, None => 1
  | Some a, Some b =>
    if (ev_created_at a =? ev_created_at b)%Z then cmp_int (scmp (ev_id a) (ev_id b))
    else cmp_int (Z.compare (ev_created_at a) (ev_created_at b))
  end.
