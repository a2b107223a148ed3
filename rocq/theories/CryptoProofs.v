(** Consequences of the laws, and a toy instance showing that the laws can hold together. *)
From Verif Require Import Base EventModel EventProofs CipherModel CipherProofs JLexProofs JsonEventProofs CryptoModel Props_Cipher.
Import ListNotations.
Open Scope nat_scope.

Lemma ascii_text s f : (forall a, f a = true -> (val a <? 128)%N = true) -> forallb f s = true -> utf8_text s.
Proof. intros H F. apply utf8_text_ascii. rewrite forallb_forall in F. apply Forall_forall. intros x HX. specialize (H x (F x HX)). apply N.ltb_lt in H. exact H. Qed.
Lemma hex_text s : utf8_text (hex_encode s).
Proof. apply (ascii_text _ is_lower_hex_char); [|apply hex_encode_lower]. intro a. destruct a as [[] [] [] [] [] [] [] []]; vm_compute; intro; try discriminate; reflexivity. Qed.
Lemma b64_utf8 s : utf8_text (b64_encode s).
Proof. apply (ascii_text _ b64_text); [|apply b64_encode_text]. intro a. destruct a as [[] [] [] [] [] [] [] []]; vm_compute; intro; try discriminate; reflexivity. Qed.
Lemma nil_text : utf8_text []. Proof. exists []. split; [constructor|reflexivity]. Qed.

Section Laws.
Context (c : prims) (valid : str -> Prop) (L : lawful c valid).
Lemma round44 m k nonce p : length nonce = 32 -> encrypt44 c m k nonce = Ok p -> decrypt44 c p k = Ok m.
Proof.
  intros H E.  destruct (N.ltb_spec (len m) 1) as [A|A]; [unfold encrypt44 in E; rewrite C28_other_lengths_refused in E by lia; discriminate|]. destruct (N.ltb_spec 65535 (len m)) as [A'|A']; [unfold encrypt44 in E; rewrite C28_other_lengths_refused in E by lia; discriminate|].
  destruct (C28_round_trip (p_mkeys c) (p_chacha c) (p_hmac c) (l_chacha c valid L) (l_chacha_len c valid L) (l_hmac c valid L) m k nonce H) as (q & Q1 & Q2); [lia|]. unfold encrypt44, decrypt44 in *. congruence.
Qed.
Lemma text44 m k nonce p : encrypt44 c m k nonce = Ok p -> utf8_text p.
Proof. unfold encrypt44, nip44_encrypt. destruct (p_mkeys c k nonce) as [[a b] d]. destruct (_ || _); [discriminate|]. intro H. assert (b64_encode (byte_of 2 :: nonce ++ p_chacha c a b (pad m) ++ p_hmac c d (nonce ++ p_chacha c a b (pad m))) = p) as <- by congruence. apply b64_utf8. Qed.
Lemma enc44_ok m k nonce : (1 <= len m <= 65535)%N -> exists p, encrypt44 c m k nonce = Ok p.
Proof. intro H. unfold encrypt44, nip44_encrypt. destruct (p_mkeys c k nonce) as [[a b] d]. destruct (N.ltb_spec (len m) 1); [lia|]. destruct (N.ltb_spec 65535 (len m)); [lia|]. eexists. reflexivity. Qed.
Lemma round04 m k iv p : length k = 32 -> length iv = 16 -> encrypt04 c m k iv = Ok p -> decrypt04 c p k = Ok m.
Proof.
  intros HK H E.  destruct (C30_round_trip (p_aes_enc c) (p_aes_dec c) (l_aes_len c valid L) (l_aes c valid L) m k iv) as (q & Q1 & Q2); [auto|exact H|]. unfold encrypt04, decrypt04 in *. congruence.
Qed.
Lemma signed sk e e' : sign_with c sk e = Ok e' -> public_key c sk = Ok (ev_pubkey e') /\ ev_id e' = id_of c e' /\ sig_ok c e' = Ok true /\ ev_content e' = ev_content e /\ ev_kind e' = ev_kind e /\ ev_created_at e' = ev_created_at e /\ ev_tags e' = ev_tags e.
Proof.
  intro H.  destruct (sign_verifies (p_sha c) (p_PK c) (p_SG c) (p_parse_pk c) (p_parse_sig c) (p_verify c) (p_pub c) (p_schnorr c) (l_sha c valid L) (l_sig c valid L) sk e e' H) as (A & B & _ & D & E & F & G & I).
  apply check_id_spec in B; [|exact (l_sha c valid L)]. repeat split; assumption.
Qed.
Lemma signed_text sk e e' : sign_with c sk e = Ok e' -> utf8_text (ev_content e) -> Forall (Forall utf8_text) (ev_tags e) -> int64 (ev_created_at e) -> int64 (ev_kind e) -> text_event e'.
Proof.
  unfold sign_with, sign. destruct (hex_decode sk) as [s|]; [|discriminate]. destruct (p_schnorr c s _) as [sg|]; [|discriminate]. intros H A B C D. injection H as <-. unfold text_event. cbn. repeat split; auto using hex_text; apply C || apply D.
Qed.
Lemma sign_ok sk e : valid sk -> exists e', sign_with c sk e = Ok e'.
Proof.
  intro V.  destruct ((l_conv c valid L) sk sk V V) as (pa & pb & k & A & _). unfold public_key, get_public_key in A. unfold sign_with, sign. destruct (hex_decode sk) as [s|] eqn:D; [|discriminate].
  destruct ((l_signs c valid L) sk s (p_sha c (serialize (mkEvent (ev_id e) (hex_encode (skipn 1 (p_pub c s))) (ev_created_at e) (ev_kind e) (ev_tags e) (ev_content e) (ev_sig e)))) V D (l_sha c valid L _)) as [sg E]. rewrite E. eexists. reflexivity.
Qed.
End Laws.

(** The toy: the public key is the secret key, signatures are the key followed by the hash, shared keys the sum (xor) of both. *)
Definition toy_conv (pub sk : str) : outcome str := match hex_decode sk, hex_decode pub with Some a, Some b => Ok (xor_str a b) | _, _ => Err end.
Definition toy_hash (m : str) : str := firstn 32 (m ++ repeat (byte_of 7) 32).
Definition toy : prims := mkPrims toy_hash str str (fun x => Some x) (fun x => Some x) (fun sg h pk => seqb sg (pk ++ h)) (fun s => byte_of 2 :: s) (fun s h => Some (s ++ h))
  toy_conv toy_conv toy_keys toy_chacha toy_mac (fun k b => toy_flip b) (fun k b => toy_flip b).
Definition toy_valid (sk : str) : Prop := length sk = 64 /\ exists b, hex_decode sk = Some b /\ length b = 32.
Lemma xor_comm a b : xor_str a b = xor_str b a.
Proof. revert b. induction a as [|x a IH]; intros [|y b]; cbn [xor_str]; try reflexivity. rewrite N.lxor_comm, IH. reflexivity. Qed.
Lemma xor_len a b : length a = length b -> length (xor_str a b) = length a.
Proof. revert b. induction a as [|x a IH]; intros [|y b] H; cbn [xor_str length] in *; try reflexivity; try discriminate. rewrite IH; [reflexivity|lia]. Qed.
Lemma toy_lawful : lawful toy toy_valid.
Proof.
  assert (PK : forall a x, hex_decode a = Some x -> public_key toy a = Ok (hex_encode x)) by (intros a x H; unfold public_key, get_public_key; cbn; rewrite H; reflexivity).
  assert (CV : forall a b x y, hex_decode a = Some x -> hex_decode b = Some y -> toy_conv (hex_encode y) a = Ok (xor_str x y)) by (intros a b x y H1 H2; unfold toy_conv; rewrite H1, hex_decode_encode; reflexivity).
  constructor.
  - intro m. change (length (toy_hash m) = 32). unfold toy_hash. rewrite firstn_length, app_length, repeat_length. lia.
  - intros s h sg H. cbn in *. injection H as <-. exists s, (s ++ h). split; [reflexivity|]. split; [reflexivity|]. apply seqb_refl.
  - intros. eexists. reflexivity.
  - intros a b (_ & x & X1 & X2) (_ & y & Y1 & Y2). exists (hex_encode x), (hex_encode y), (xor_str x y). repeat split; auto.
    + cbn [p_conv toy]. apply (CV a b); assumption.
    + cbn [p_conv toy]. rewrite xor_comm. apply (CV b a); assumption.
  - intros a b (_ & x & X1 & X2) (_ & y & Y1 & Y2). exists (hex_encode x), (hex_encode y), (xor_str x y). split; [auto|]. split; [auto|]. cbn [p_shared toy]. split; [apply (CV a b); assumption|]. split; [rewrite xor_comm; apply (CV b a); assumption|]. rewrite xor_len; congruence.
  - intros. apply toy_flip_twice.
  - intros. apply toy_flip_length.
  - intros. apply toy_mac_length.
  - intros k b H. cbn. rewrite toy_flip_length. exact H.
  - intros. cbn. apply toy_flip_twice.
Qed.
