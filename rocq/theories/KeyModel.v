(** Keys and key agreement: /repo/keys.go, /repo/nip04/nip04.go:16-37, /repo/nip44/nip44.go:156-172 and 222-246. The curve is a parameter. *)
From Verif Require Import Base EventModel.
Import ListNotations.
Local Open Scope Z_scope.

(** big.Int.SetBytes, and the same number in so many bytes *)
Definition be_val (s : str) : Z := fold_left (fun a c => 256 * a + Z.of_N (val c)) s 0.
Fixpoint be_bytes (len : nat) (k : Z) : str := match len with O => [] | S n => be_bytes n (k / 256) ++ [byte_of (Z.to_N (k mod 256))] end.
(** big.Int.Bytes of a number below 2^256: no leading zeros *)
Fixpoint drop_zeros (s : str) : str := match s with [] => [] | c :: r => if (val c =? 0)%N then drop_zeros r else s end.
Definition int_bytes (k : Z) : str := drop_zeros (be_bytes 32 k).
(** fmt.Sprintf("%064x", b) for a slice b: zeros on the left up to 64 characters *)
Definition pad64 (s : str) : str := repeat "0"%char (64 - length s) ++ s.
(** The order of secp256k1, and the prime of its field. *)
Definition secp_n : Z := 0xFFFFFFFFFFFFFFFFFFFFFFFFFFFFFFFEBAAEDCE6AF48A03BBFD25E8CD0364141.
Definition secp_p : Z := 0xFFFFFFFFFFFFFFFFFFFFFFFFFFFFFFFFFFFFFFFFFFFFFFFFFFFFFFFEFFFFFC2F.
(** GeneratePrivateKey, keys.go:14-29. [random]: the 40 bytes read, None when the reader fails; [n]: params.N. *)
Definition generate_private_key (n : Z) (random : option str) : str :=
  match random with
  | None => []
  | Some b => pad64 (hex_encode (int_bytes (be_val b mod (n - 1) + 1)))
  end.

(** A curve: its points with the one at infinity, their addition, a generator of order [cv_n]; the x coordinate in 32 bytes (zeros for the point at infinity,
    as ToAffine leaves it), whether y is even, and the point with even y for an x, if there is one. *)
Record curve := mkCurve {
  cv_P : Type; cv_add : cv_P -> cv_P -> cv_P; cv_neg : cv_P -> cv_P; cv_zero : cv_P; cv_gen : cv_P; cv_n : Z;
  cv_x : cv_P -> str; cv_even : cv_P -> bool; cv_lift : str -> option cv_P; cv_is_zero : cv_P -> bool
}.
Section Curve.
Variable c : curve.
Notation P := (cv_P c).
(** ScalarMultNonConst *)
Fixpoint nmul (k : nat) (p : P) : P := match k with O => cv_zero c | S k => cv_add c p (nmul k p) end.
Definition smul (k : Z) (p : P) : P := nmul (Z.to_nat (k mod cv_n c)) p.
(** btcec.PrivKeyFromBytes: ModNScalar.SetByteSlice looks at the first 32 bytes, and reduces *)
Definition scalar (b : str) : Z := be_val (firstn 32 b) mod cv_n c.
(** PublicKey.SerializeCompressed *)
Definition compressed (p : P) : str := (if cv_even c p then byte_of 2 else byte_of 3) :: cv_x c p.
(** the public key that PrivKeyFromBytes gives, serialized: what EventModel.get_public_key and sign ask for as [pub_compressed] *)
Definition pub_of (s : str) : str := compressed (smul (scalar s) (cv_gen c)).
(** GetPublicKey, keys.go:31-39 *)
Definition curve_public_key (sk : str) : outcome str := get_public_key pub_of sk.
(** btcec.ParsePubKey(hex.DecodeString("02" + pub)); other lengths need another first byte and are refused *)
Definition parse_02 (pub : str) : outcome P :=
  match hex_decode (B "02" ++ pub) with
  | Some (_ :: x) => if Nat.eqb (length x) 32 then match cv_lift c x with Some p => Ok p | None => Err end else Err
  | _ => Err
  end.
(** nip44.go:223-246; nip04.go:19-37 with btcec.GenerateSharedSecret, which computes the same *)
Definition shared_secret (pub sk : str) : outcome str :=
  match hex_decode sk with
  | None => Err
  | Some s => obind (parse_02 pub) (fun p => Ok (cv_x c (smul (scalar s) p)))
  end.
(** GenerateConversationKey, nip44.go:156-172. [extract]: hkdf.Extract with the salt "nip44-v2". Strings are compared byte by byte. *)
Definition order_text : str := B "fffffffffffffffffffffffffffffffebaaedce6af48a03bbfd25e8cd0364141".
Definition zero_text : str := repeat "0"%char 64.
Definition refused_key (sk : str) : bool := match scmp sk order_text with Lt => false | _ => true end || seqb sk zero_text.
Definition conversation_key (extract : str -> str) (pub sk : str) : outcome str :=
  if refused_key sk then Err else obind (shared_secret pub sk) (fun s => Ok (extract s)).

(** Signing and checking, as btcec's schnorr package does for signature.go:17-77 (BIP-340; not part of /repo). [tag]: the hash tagged "BIP0340/challenge";
    [nonce key hash i]: the i-th RFC 6979 nonce, tried in turn up to [tries] times (the library tries for ever). *)
Definition challenge (tag : str -> str) (r px h : str) : option Z := let e := be_val (tag (r ++ px ++ h)) in if e <? cv_n c then Some e else None.
Definition sign_once (tag : str -> str) (d k : Z) (h : str) : option (str * Z) :=
  let p := smul d (cv_gen c) in
  let d := if cv_even c p then d else - d in
  let r := smul k (cv_gen c) in
  let k := if cv_even c r then k else - k in
  match challenge tag (cv_x c r) (cv_x c p) h with
  | Some e => Some (cv_x c r, (k + e * d) mod cv_n c)
  | None => None
  end.
Fixpoint first_some {A} (f : nat -> option A) (i tries : nat) : option A :=
  match tries with O => None | S t => match f i with Some x => Some x | None => first_some f (S i) t end end.
Definition schnorr_sign (tag : str -> str) (nonce : str -> str -> nat -> Z) (tries : nat) (s h : str) : option str :=
  if negb (Nat.eqb (length h) 32) || (scalar s =? 0) then None else
  match first_some (fun i => sign_once tag (scalar s) (nonce s h i) h) 0 tries with
  | Some (r, z) => Some (r ++ be_bytes 32 z)
  | None => None
  end.
(** schnorr.ParsePubKey, ParseSignature and Verify *)
Definition schnorr_parse_pk (x : str) : option P := if Nat.eqb (length x) 32 then cv_lift c x else None.
Definition schnorr_parse_sig (b : str) : option (str * Z) :=
  if Nat.eqb (length b) 64 && (be_val (firstn 32 b) <? secp_p) && (be_val (skipn 32 b) <? cv_n c) then Some (firstn 32 b, be_val (skipn 32 b)) else None.
Definition schnorr_verify (tag : str -> str) (sig : str * Z) (h : str) (p : P) : bool :=
  Nat.eqb (length h) 32 &&
  match cv_lift c (cv_x c p), challenge tag (fst sig) (cv_x c p) h with
  | Some p, Some e =>
      let r := cv_add c (smul (snd sig) (cv_gen c)) (smul (- e) p) in
      negb (cv_is_zero c r) && cv_even c r && seqb (cv_x c r) (fst sig)
  | _, _ => false
  end.
End Curve.
