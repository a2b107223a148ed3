(** Keyers (/repo/keyer/plain.go, encrypted.go, lib.go), gift wraps (/repo/nip59/nip59.go) and private messages (/repo/nip17/nip17.go).
    Random choices (nonces, one-time keys, times) are arguments. Signing, JSON and encryption are the models of signature.go, event_easyjson.go and nip44.go; their primitives are in [prims]. *)
From Verif Require Import Base EventModel JLexModel CryptoModel Nip19Model.
Import ListNotations.
Open Scope Z_scope.

Section Gift.
Variable c : prims.

(** nip59/nip59.go:14-66. [t1], [t2]: the two times chosen, [nonce_key]: the one-time secret key, [nonce]: of the outer encryption; a nil modify is the identity *)
Definition gift_wrap (rumor : event) (recipient : str) (encrypt : str -> outcome str) (sign_fn : event -> outcome event) (modify : event -> event)
    (t1 t2 : Z) (nonce_key nonce : str) : outcome event :=
  let rumor' := mkEvent (ev_id rumor) (ev_pubkey rumor) (ev_created_at rumor) (ev_kind rumor) (ev_tags rumor) (ev_content rumor) [] in
  obind (encrypt (encode_event rumor')) (fun ct =>
  obind (sign_fn (mkEvent [] [] t1 13 [] ct [])) (fun seal =>
  obind (p_conv c recipient nonce_key) (fun ck =>
  obind (encrypt44 c (encode_event seal) ck nonce) (fun sct =>
  sign_with c nonce_key (modify (mkEvent [] [] t2 1059 [[B "p"; recipient]] sct [])))))).
(** nip59/nip59.go:34, 58: Now() - 60*rand.Int63n(600), [r] being the random number *)
Definition wrap_time (now r : Z) : Z := now - 60 * r.
(** nip59/nip59.go:68-101. A decrypted text that is not JSON, and a signature check that fails or errs, are errors *)
Definition gift_unwrap (gw : event) (decrypt : str -> str -> outcome str) : outcome event :=
  obind (decrypt (ev_pubkey gw) (ev_content gw)) (fun jseal =>
  obind (decode_event jseal) (fun seal =>
  match sig_ok c seal with
  | Panic => Panic
  | Err => Err
  | Ok false => Err
  | Ok true =>
    obind (decrypt (ev_pubkey seal) (ev_content seal)) (fun jrumor =>
    obind (decode_event jrumor) (fun rumor =>
    let r1 := mkEvent (ev_id rumor) (ev_pubkey seal) (ev_created_at rumor) (ev_kind rumor) (ev_tags rumor) (ev_content rumor) (ev_sig rumor) in
    Ok (mkEvent (id_of c r1) (ev_pubkey r1) (ev_created_at r1) (ev_kind r1) (ev_tags r1) (ev_content r1) (ev_sig r1))))
  end)).

(** keyer/plain.go:15-20; the map of conversation keys is an association list (each of its operations is atomic) *)
Record keysigner := mkKS { ks_sk : str; ks_pk : str; ks_keys : list (str * str) }.
Fixpoint lookup (k : str) (l : list (str * str)) : option str := match l with [] => None | (k', v) :: r => if seqb k k' then Some v else lookup k r end.
(** keyer/plain.go:24-30 *)
Definition new_plain (sec : str) : outcome keysigner := obind (public_key c sec) (fun pk => Ok (mkKS sec pk [])).
(** keyer/plain.go:42-50, 57-65 *)
Definition ks_conv (k : keysigner) (other : str) : outcome str * keysigner :=
  match lookup other (ks_keys k) with
  | Some ck => (Ok ck, k)
  | None =>
    match p_conv c other (ks_sk k) with
    | Ok ck => (Ok ck, mkKS (ks_sk k) (ks_pk k) ((other, ck) :: ks_keys k))
    | r => (r, k)
    end
  end.
(** keyer/plain.go:34-66 *)
Definition ks_sign (k : keysigner) (e : event) : outcome event := sign_with c (ks_sk k) e.
Definition ks_encrypt (k : keysigner) (plain recipient nonce : str) : outcome str * keysigner :=
  let '(ck, k') := ks_conv k recipient in (obind ck (fun ck => encrypt44 c plain ck nonce), k').
Definition ks_decrypt (k : keysigner) (payload sender : str) : outcome str * keysigner :=
  let '(ck, k') := ks_conv k sender in (obind ck (fun ck => decrypt44 c payload ck), k').
Inductive kop := KEncrypt (plain recipient nonce : str) | KDecrypt (payload sender : str).
Definition ks_run (k : keysigner) (ops : list kop) : keysigner :=
  fold_left (fun k o => match o with KEncrypt p r n => snd (ks_encrypt k p r n) | KDecrypt p s => snd (ks_decrypt k p s) end) ops k.

(** keyer/encrypted.go: the signer holding a locked key. [unlock]: nip49.Decrypt; what the callback returns is an argument of every call *)
Variable unlock : str -> str -> outcome str.
Record encsigner := mkES { es_code : str; es_pk : str }.
(** encrypted.go:27-42 *)
Definition es_public_key (s : encsigner) (password : str) : outcome str * encsigner :=
  if negb (empty (es_pk s)) then (Ok (es_pk s), s)
  else match obind (unlock (es_code s) password) (public_key c) with
       | Ok pk => (Ok pk, mkES (es_code s) pk)
       | r => (r, s)
       end.
(** encrypted.go:46-54 *)
Definition es_sign (s : encsigner) (password : str) (e : event) : outcome event * encsigner :=
  match unlock (es_code s) password with
  | Ok sk => (sign_with c sk e, mkES (es_code s) (ev_pubkey e))
  | Err => (Err, s)
  | Panic => (Panic, s)
  end.
(** encrypted.go:58-69 *)
Definition es_encrypt (s : encsigner) (password plain recipient nonce : str) : outcome str :=
  obind (unlock (es_code s) password) (fun sk => obind (p_conv c recipient sk) (fun ck => encrypt44 c plain ck nonce)).
(** encrypted.go:73-84: it encrypts its own result variable, still empty *)
Definition es_decrypt (s : encsigner) (password payload sender nonce : str) : outcome str :=
  obind (unlock (es_code s) password) (fun sk => obind (p_conv c sender sk) (fun ck => encrypt44 c [] ck nonce)).
Inductive eop := EKey (password : str) | ESign (password : str) (e : event).
Definition es_step (s : encsigner) (o : eop) : encsigner := match o with EKey p => snd (es_public_key s p) | ESign p e => snd (es_sign s p e) end.
Definition es_run (s : encsigner) (ops : list eop) : encsigner := fold_left es_step ops s.

(** keyer/lib.go:58-107, without the remote signers: [is_remote] says whether the text is a bunker URL or a nip05 identifier. Some handler = a PasswordHandler is given *)
Variable is_remote : str -> bool.
Inductive keyer := KPlain (k : keysigner) | KLocked (s : encsigner) | KRemote.
(** lib.go:76, 99, 103: pk, _ := GetPublicKey(sec) *)
Definition plain_of (sec : str) : outcome keyer :=
  match public_key c sec with Ok pk => Ok (KPlain (mkKS sec pk [])) | Err => Ok (KPlain (mkKS sec [] [])) | Panic => Panic end.
Definition keyer_new (input : str) (handler : bool) (password : str) : outcome keyer :=
  if has_prefix input (B "ncryptsec") then
    (if handler then Ok (KLocked (mkES input [])) else obind (unlock input password) plain_of)
  else if is_remote input then Ok KRemote
  else match nip19_decode input with
       | Panic => Panic
       | Ok (prefix, KHex sec) => if seqb prefix (B "nsec") then plain_of sec else
           match hex_decode input with Some _ => if (length input <=? 64)%nat then plain_of (repeat "0"%char (64 - length input) ++ input) else Err | None => Err end
       | _ => match hex_decode input with Some _ => if (length input <=? 64)%nat then plain_of (repeat "0"%char (64 - length input) ++ input) else Err | None => Err end
       end.

(** nip17/nip17.go:85-135 with a plain keyer. [now]: the rumor's time; the random parts of the two wraps in order *)
Record randoms := mkR { r_enc : str; r_t1 : Z; r_t2 : Z; r_key : str; r_out : str }.
Definition prepare_message (content : str) (tags : list tag) (k : keysigner) (recipient : str) (modify : event -> event) (now : Z) (ra rb : randoms) : outcome (event * event) :=
  let r0 := mkEvent [] (ks_pk k) now 14 (tags ++ [[B "p"; recipient]]) content [] in
  let rumor := mkEvent (id_of c r0) (ev_pubkey r0) (ev_created_at r0) (ev_kind r0) (ev_tags r0) (ev_content r0) [] in
  let k1 := snd (ks_encrypt k [] (ks_pk k) []) in
  obind (gift_wrap rumor (ks_pk k) (fun s => fst (ks_encrypt k s (ks_pk k) (r_enc ra))) (ks_sign k) modify (r_t1 ra) (r_t2 ra) (r_key ra) (r_out ra)) (fun to_us =>
  obind (gift_wrap rumor recipient (fun s => fst (ks_encrypt k1 s recipient (r_enc rb))) (ks_sign k1) modify (r_t1 rb) (r_t2 rb) (r_key rb) (r_out rb)) (fun to_them =>
  Ok (to_us, to_them))).
(** nip17/nip17.go:163-170: what is sent on for one gift wrap received. Both decryptions start from the same table of keys; the table is only a cache (C68_cache) *)
Definition receive_message (k : keysigner) (gw : event) : outcome event := gift_unwrap gw (fun other text => fst (ks_decrypt k text other)).
End Gift.
