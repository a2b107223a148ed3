(** Signatures in a program built with the tag libsecp256k1: /repo/signature_libsecp256k1.go and the functions of /repo/libsecp256k1/src that it calls. The curve is the parameter
    of KeyModel. *)
From Verif Require Import Base EventModel KeyModel.
Import ListNotations.
Local Open Scope Z_scope.

(** hex.Decode into an array of [room] bytes, some of them written: what is written before the error or the end of the text. Writing after the end of the array
    is a panic. (The array is made anew for each call, so the bytes that are not written are zero.) *)
Fixpoint hex_into (room : nat) (s : str) : outcome str :=
  match s with
  | [] => Ok []
  | a :: b :: s' =>
      match hex_val a, hex_val b with
      | Some x, Some y =>
          match room with
          | O => Panic
          | S n => obind (hex_into n s') (fun r => Ok (byte_of (16 * x + y) :: r))
          end
      | _, _ => Err
      end
  | _ => Err
  end.
Definition hex_array (room : nat) (s : str) : outcome str := obind (hex_into room s) (fun b => Ok (b ++ repeat (byte_of 0) (room - length b))).

Section Libsecp.
Variable c : curve.
Variable tag : str -> str.
(** secp256k1_schnorrsig_challenge, modules/schnorrsig/main_impl.h:117-131: the hash is reduced, not refused, when it is not below the order *)
Definition lib_challenge (r px h : str) : Z := be_val (tag (r ++ px ++ h)) mod cv_n c.
(** secp256k1_schnorrsig_verify, modules/schnorrsig/main_impl.h:221-265: 64 bytes, of which the first half must be in the field and the second below the order *)
Definition lib_verify (sig h : str) (p : cv_P c) : bool :=
  let r := firstn 32 sig in let s := be_val (skipn 32 sig) in
  (be_val r <? secp_p) && (s <? cv_n c) &&
  (let q := cv_add c (smul c s (cv_gen c)) (smul c (- lib_challenge r (cv_x c p) h) p) in negb (cv_is_zero c q) && cv_even c q && seqb (cv_x c q) r).

(** secp256k1_keypair_create, modules/extrakeys/main_impl.h:196-212, with secp256k1.c:591-602 and scalar_impl.h:34-40: a number from 1 to the order less one *)
Definition lib_keypair (b : str) : option Z := let d := be_val b in if (1 <=? d) && (d <? cv_n c) then Some d else None.
(** secp256k1_schnorrsig_sign32, modules/schnorrsig/main_impl.h:133-200. [nonce key hash random]: nonce_function_bip340, before the number is reduced; zero is the only failure *)
Definition lib_schnorr_sign (nonce : Z -> str -> str -> Z) (d : Z) (h random : str) : option str :=
  let p := smul c d (cv_gen c) in
  let d' := if cv_even c p then d else - d in
  let k := nonce d h random mod cv_n c in
  if k =? 0 then None else
  let r := smul c k (cv_gen c) in
  let k' := if cv_even c r then k else - k in
  let e := lib_challenge (cv_x c r) (cv_x c p) h in
  Some (cv_x c r ++ be_bytes 32 ((k' + e * d') mod cv_n c)).

Variable sha : str -> str.
(** CheckSignature, signature_libsecp256k1.go:37-59, with secp256k1_xonly_pubkey_parse, modules/extrakeys/main_impl.h:22-42. Err: the error is not nil. *)
Definition lib_check (e : event) : outcome bool :=
  obind (hex_array 32 (ev_pubkey e)) (fun pk =>
  obind (hex_array 64 (ev_sig e)) (fun sig =>
  match cv_lift c pk with
  | None => Err
  | Some p => Ok (lib_verify sig (sha (serialize e)) p)
  end)).

(** Sign, signature_libsecp256k1.go:61-95. The library reads 32 bytes from the address of the first byte of the key, whatever the length of the key: [mem] is what
    lies after the key in memory. The event is given back as it is left, also after an error. *)
Definition read32 (mem s : str) : str := firstn 32 (s ++ mem).
Definition lib_sign (nonce : Z -> str -> str -> Z) (mem random sk : str) (e : event) : event * outcome unit :=
  match hex_decode sk with
  | None => (e, Err)
  | Some [] => (e, Panic)
  | Some s =>
      match lib_keypair (read32 mem s) with
      | None => (e, Err)
      | Some d =>
          let pk := hex_encode (cv_x c (smul c d (cv_gen c))) in
          let e1 := mkEvent (ev_id e) pk (ev_created_at e) (ev_kind e) (ev_tags e) (ev_content e) (ev_sig e) in
          let h := sha (serialize e1) in
          match lib_schnorr_sign nonce d h random with
          | None => (e1, Err)
          | Some sg => (mkEvent (hex_encode h) pk (ev_created_at e) (ev_kind e) (ev_tags e) (ev_content e) (hex_encode sg), Ok tt)
          end
      end
  end.
End Libsecp.
