(** The cryptography the keyers, gift wraps and remote signers are built on, collected: external primitives, the code's own functions on top of them (modelled in
    EventModel.v and CipherModel.v), and the laws asked of the primitives. Nothing here is new code. *)
From Verif Require Import Base EventModel CipherModel.
Import ListNotations.

Record prims := mkPrims {
  p_sha : str -> str;                                   (* sha256 *)
  p_PK : Type; p_SG : Type;
  p_parse_pk : str -> option p_PK; p_parse_sig : str -> option p_SG; p_verify : p_SG -> str -> p_PK -> bool;   (* schnorr *)
  p_pub : str -> str; p_schnorr : str -> str -> option str;
  p_conv : str -> str -> outcome str;                   (* nip44.GenerateConversationKey(pub, sk) *)
  p_shared : str -> str -> outcome str;                 (* nip04.ComputeSharedSecret(pub, sk) *)
  p_mkeys : str -> str -> str * str * str; p_chacha : str -> str -> str -> str; p_hmac : str -> str -> str;   (* nip44 *)
  p_aes_enc : str -> str -> str; p_aes_dec : str -> str -> str   (* nip04 *)
}.
Section Derived.
Variable c : prims.
Definition id_of (e : event) : str := get_id (p_sha c) e.
Definition sig_ok (e : event) : outcome bool := check_signature (p_sha c) (p_PK c) (p_SG c) (p_parse_pk c) (p_parse_sig c) (p_verify c) e.
Definition sign_with (sk : str) (e : event) : outcome event := sign (p_sha c) (p_pub c) (p_schnorr c) sk e.
Definition public_key (sk : str) : outcome str := get_public_key (p_pub c) sk.
Definition encrypt44 (plain ck nonce : str) : outcome str := nip44_encrypt (p_mkeys c) (p_chacha c) (p_hmac c) plain ck nonce.
Definition decrypt44 (payload ck : str) : outcome str := nip44_decrypt (p_mkeys c) (p_chacha c) (p_hmac c) payload ck.
Definition encrypt04 (plain key iv : str) : outcome str := nip04_encrypt (p_aes_enc c) plain key iv.
Definition decrypt04 (content key : str) : outcome str := nip04_decrypt (p_aes_dec c) content key.
(** The laws. [valid]: secret keys in range. Two parties compute the same keys from each other's public keys. *)
Record lawful (valid : str -> Prop) : Prop := {
  l_sha : forall m, length (p_sha c m) = 32;
  l_sig : forall s h sg, p_schnorr c s h = Some sg -> exists pk sig, p_parse_pk c (skipn 1 (p_pub c s)) = Some pk /\ p_parse_sig c sg = Some sig /\ p_verify c sig h pk = true;
  l_signs : forall sk s h, valid sk -> hex_decode sk = Some s -> length h = 32 -> exists sg, p_schnorr c s h = Some sg;
  l_conv : forall a b, valid a -> valid b -> exists pa pb k, public_key a = Ok pa /\ public_key b = Ok pb /\ p_conv c pb a = Ok k /\ p_conv c pa b = Ok k;
  l_shared : forall a b, valid a -> valid b -> exists pa pb k, public_key a = Ok pa /\ public_key b = Ok pb /\ p_shared c pb a = Ok k /\ p_shared c pa b = Ok k /\ length k = 32;
  l_chacha : forall k n m, p_chacha c k n (p_chacha c k n m) = m; l_chacha_len : forall k n m, length (p_chacha c k n m) = length m;
  l_hmac : forall k m, length (p_hmac c k m) = 32;
  l_aes_len : forall k b, length b = 16 -> length (p_aes_enc c k b) = 16; l_aes : forall k b, length b = 16 -> p_aes_dec c k (p_aes_enc c k b) = b
}.
End Derived.
