(** Encrypted payloads: /repo/nip44/nip44.go, /repo/nip04/nip04.go, /repo/nip49/nip49.go. The primitives (ChaCha20, HMAC, HKDF, AES,
    scrypt, XChaCha20-Poly1305) are section variables; framing, padding and text encodings are concrete. *)
From Verif Require Import Base Bech32Model Nip19Model.
Local Open Scope N_scope.

(** ** encoding/base64, StdEncoding *)
Definition b64_char (v : N) : ascii :=
  if v <? 26 then byte_of (65 + v) else if v <? 52 then byte_of (97 + (v - 26)) else if v <? 62 then byte_of (48 + (v - 52))
  else if v =? 62 then "+"%char else "/"%char.
Definition b64_val (c : ascii) : option N :=
  let n := val c in
  if (65 <=? n) && (n <=? 90) then Some (n - 65)
  else if (97 <=? n) && (n <=? 122) then Some (n - 97 + 26)
  else if (48 <=? n) && (n <=? 57) then Some (n - 48 + 52)
  else if ceqb c "+"%char then Some 62 else if ceqb c "/"%char then Some 63 else None.

(** EncodeToString *)
Fixpoint b64_encode (s : str) : str :=
  match s with
  | [] => []
  | [a] => let v := val a * 65536 in [b64_char (v / 262144); b64_char (v / 4096 mod 64); "="; "="]%char
  | [a; b] => let v := val a * 65536 + val b * 256 in [b64_char (v / 262144); b64_char (v / 4096 mod 64); b64_char (v / 64 mod 64); "="%char]
  | a :: b :: c :: r =>
    let v := val a * 65536 + val b * 256 + val c in
    b64_char (v / 262144) :: b64_char (v / 4096 mod 64) :: b64_char (v / 64 mod 64) :: b64_char (v mod 64) :: b64_encode r
  end.

(** DecodeString: carriage returns and newlines are skipped anywhere, the unused bits of the last digit are not looked at, padding
    ends the text. *)
Definition is_eol (c : ascii) : bool := (val c =? 10) || (val c =? 13).
Definition three (v : N) : str := [byte_of (v / 65536); byte_of (v / 256 mod 256); byte_of (v mod 256)].
Fixpoint b64_groups (s : str) : option str :=
  match s with
  | [] => Some []
  | a :: b :: c :: d :: r =>
    match b64_val a, b64_val b with
    | Some x, Some y =>
      match b64_val c with
      | Some z =>
        match b64_val d with
        | Some w => match b64_groups r with Some t => Some (three (x * 262144 + y * 4096 + z * 64 + w) ++ t) | None => None end
        | None => if ceqb d "="%char then match r with [] => Some (firstn 2 (three (x * 262144 + y * 4096 + z * 64))) | _ => None end else None
        end
      | None => if ceqb c "="%char && ceqb d "="%char then match r with [] => Some (firstn 1 (three (x * 262144 + y * 4096))) | _ => None end else None
      end
    | _, _ => None
    end
  | _ => None
  end.
Definition b64_decode (s : str) : option str := b64_groups (filter (fun c => negb (is_eol c)) s).

(** ** NIP-44 *)
(** nip44.go:213-220. math.Floor(math.Log2(float64(n))) is N.log2 n: the float logarithm is exact on powers of two and its
    error is far below the distance to the next integer for n < 2^16. *)
Definition calc_padding (n : N) : N :=
  if n <=? 32 then 32
  else
    let next_power := 2 ^ (N.log2 (n - 1) + 1) in
    let chunk := N.max 32 (next_power / 8) in
    chunk * ((n - 1) / chunk + 1).
Definition len (s : str) : N := N.of_nat (length s).
(** binary.BigEndian.PutUint16 and Uint16 *)
Definition be16 (n : N) : str := [byte_of (n / 256 mod 256); byte_of (n mod 256)].
Definition get_be16 (s : str) : N := match s with a :: b :: _ => val a * 256 + val b | _ => 0 end.
Definition zero : ascii := byte_of 0.
(** nip44.go:72-75 *)
Definition pad (plain : str) : str := be16 (len plain) ++ plain ++ repeat zero (N.to_nat (calc_padding (len plain)) - length plain).

Section Nip44.
  (** messageKeys (nip44.go:192-211; HKDF-Expand of 76 bytes cannot fail) *)
  Variable message_keys : str -> str -> str * str * str.
  (** chacha (174-183) *)
  Variable chacha : str -> str -> str -> str.
  (** sha256Hmac (185-190): key and the concatenation of nonce and ciphertext *)
  Variable hmac : str -> str -> str.

  (** nip44.go:54-93 for a nonce already chosen (custom or random) *)
  Definition nip44_encrypt (plain ck nonce : str) : outcome str :=
    let '(k, n, h) := message_keys ck nonce in
    if (len plain <? 1) || (65535 <? len plain) then Err
    else
      let ct := chacha k n (pad plain) in
      Ok (b64_encode (byte_of 2 :: nonce ++ ct ++ hmac h (nonce ++ ct))).

  (** nip44.go:44-59: the zero nonce means "not given" and is replaced by random bytes *)
  Definition nip44_encrypt_with (custom : option str) (random plain ck : str) : outcome str :=
    match custom with
    | None => nip44_encrypt plain ck random
    | Some c => if negb (Nat.eqb (length c) 32) then Err
                else if seqb c (repeat zero 32) then nip44_encrypt plain ck random else nip44_encrypt plain ck c
    end.

  (** nip44.go:96-154 *)
  Definition nip44_decrypt (payload ck : str) : outcome str :=
    if (len payload <? 132) || (87472 <? len payload) then Err
    else if match payload with c :: _ => ceqb c "#"%char | [] => false end then Err
    else
      match b64_decode payload with
      | None => Err
      | Some [] => Panic
      | Some (v :: r) =>
        if negb (val v =? 2) then Err
        else if (len (v :: r) <? 99) || (65603 <? len (v :: r)) then Err
        else
          let nonce := firstn 32 r in
          let ct := firstn (length r - 64) (skipn 32 r) in
          let mac := skipn (length r - 32) r in
          let '(k, n, h) := message_keys ck nonce in
          if negb (seqb mac (hmac h (nonce ++ ct))) then Err
          else
            let padded := chacha k n ct in
            let m := get_be16 padded in
            if (m <? 1) || (65535 <? m) || negb (len padded =? 2 + calc_padding m) then Err
            else
              let body := skipn 2 padded in
              if Nat.ltb (length body) (N.to_nat m) then Panic (* slice bounds, line 148 *)
              else Ok (firstn (N.to_nat m) body)
      end.
End Nip44.

(** ** NIP-04 *)
(** strings.Split(s, sep): the text before the first separator and the text between it and the next *)
Fixpoint cut_str (sep s : str) : option (str * str) :=
  if has_prefix s sep then Some ([], skipn (length sep) s)
  else match s with [] => None | c :: r => match cut_str sep r with Some (a, b) => Some (c :: a, b) | None => None end end.

Fixpoint xor_str (a b : str) : str :=
  match a, b with x :: a', y :: b' => byte_of (N.lxor (val x) (val y)) :: xor_str a' b' | _, _ => [] end.

Section Nip04.
  (** aes.NewCipher(key) and its two directions on one 16-byte block *)
  Variable aes_enc aes_dec : str -> str -> str.

  (** cipher.NewCBCEncrypter(block, iv).CryptBlocks; [n] blocks *)
  Fixpoint cbc_enc (key : str) (n : nat) (iv s : str) : str :=
    match n with
    | O => []
    | S k => let c := aes_enc key (xor_str (firstn 16 s) iv) in c ++ cbc_enc key k c (skipn 16 s)
    end.
  Fixpoint cbc_dec (key : str) (n : nat) (iv s : str) : str :=
    match n with
    | O => []
    | S k => let c := firstn 16 s in xor_str (aes_dec key c) iv ++ cbc_dec key k c (skipn 16 s)
    end.
  (** crypto/aes: key sizes *)
  Definition aes_key (key : str) : bool := Nat.eqb (length key) 16 || Nat.eqb (length key) 24 || Nat.eqb (length key) 32.

  Definition iv_sep : str := B "?iv=".
  (** nip04.go:42-74 with the random iv as an argument *)
  Definition nip04_encrypt (message key iv : str) : outcome str :=
    if negb (aes_key key) then Err
    else
      let padding := (16 - length message mod 16)%nat in
      let padded := message ++ repeat (byte_of (N.of_nat padding)) padding in
      Ok (b64_encode (cbc_enc key (length padded / 16) iv padded) ++ iv_sep ++ b64_encode iv).
  (** nip04.go:78-116. NewCBCDecrypter panics on an iv that is not one block, CryptBlocks on input that is not whole blocks. *)
  Definition nip04_decrypt (content key : str) : outcome str :=
    match cut_str iv_sep content with
    | None => Err
    | Some (p0, rest) =>
      let p1 := match cut_str iv_sep rest with Some (a, _) => a | None => rest end in
      match b64_decode p0 with
      | None => Err
      | Some ct =>
        match b64_decode p1 with
        | None => Err
        | Some iv =>
          if negb (aes_key key) then Err
          else if negb (Nat.eqb (length iv) 16) then Panic
          else if negb (Nat.eqb (length ct mod 16) 0) then Panic
          else
            let plain := cbc_dec key (length ct / 16) iv ct in
            match rev plain with
            | [] => Ok []
            | l :: _ => if Nat.ltb (length plain) (N.to_nat (val l)) then Err else Ok (firstn (length plain - N.to_nat (val l)) plain)
            end
        end
      end
    end.
End Nip04.

(** ** NIP-49 *)
Section Nip49.
  (** getKey: NFKC and scrypt; None is an error *)
  Variable get_key : str -> str -> Z -> option str.
  (** chacha20poly1305.NewX(key).Seal(nil, nonce, plaintext, ad) and Open *)
  Variable seal : str -> str -> str -> str -> str.
  Variable open : str -> str -> str -> str -> option str.

  (** int(math.Pow(2, logn)): from 2^63 on the conversion saturates (amd64) *)
  Definition cost (logn : N) : Z := if logn <? 63 then (2 ^ Z.of_N logn)%Z else min_int64.

  (** make([]byte, 91) and copy: what does not fit is cut, what is missing stays zero *)
  Definition fit (n : nat) (s : str) : str := firstn n s ++ repeat zero (n - length s).
  (** nip49.go:32-64 with salt and nonce as arguments *)
  Definition nip49_encrypt_bytes (sk password : str) (logn ksb : N) (salt nonce : str) : outcome str :=
    match get_key password salt (cost logn) with
    | None => Err
    | Some key =>
      let ad := [byte_of ksb] in
      to_code (B "ncryptsec") (byte_of 2 :: byte_of logn :: salt ++ nonce ++ ad ++ fit 48 (seal key nonce sk ad))
    end.
  (** nip49.go:24-30 *)
  Definition nip49_encrypt (sk password : str) (logn ksb : N) (salt nonce : str) : outcome str :=
    match hex_decode sk with
    | None => Err
    | Some b => if negb (Nat.eqb (length b) 32) then Err else nip49_encrypt_bytes b password logn ksb salt nonce
    end.
  (** nip49.go:71-109; slicing beyond the data panics *)
  Definition nip49_decrypt_bytes (s password : str) : outcome str :=
    obind (decode s) (fun hd =>
      let '(prefix, bits5) := hd in
      if negb (seqb prefix (B "ncryptsec")) then Err
      else obind (convert_bits bits5 5 8 false) (fun nums =>
        match bytes_of nums with
        | [] => Panic
        | v :: r =>
          if negb (val v =? 2) then Err
          else match r with
               | [] => Panic
               | logn :: d =>
                 if Nat.ltb (length d) 41 then Panic
                 else
                   let salt := firstn 16 d in
                   let nonce := firstn 24 (skipn 16 d) in
                   let ad := firstn 1 (skipn 40 d) in
                   match get_key password salt (cost (val logn)) with
                   | None => Err
                   | Some key => match open key nonce (skipn 41 d) ad with Some m => Ok m | None => Err end
                   end
               end
        end)).
  (** nip49.go:66-69 *)
  Definition nip49_decrypt (s password : str) : outcome str := obind (nip49_decrypt_bytes s password) (fun b => Ok (hex_encode b)).
End Nip49.
