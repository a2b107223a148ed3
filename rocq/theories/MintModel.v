(** The wallet's own settings and its token events: /repo/nip60/wallet.go:254-359, /repo/nip60/token.go:21-78, /repo/nip60/helpers.go:85-114,
    /repo/nip60/client/client.go:29-58 and 192-216. *)
From Verif Require Import Base EventModel Nip19Model Machine WalletModel WalletLoadModel HttpUrlModel KeyModel BlindModel.
Import ListNotations.
Local Open Scope Z_scope.

(** ** Mints and the private key. [publishes]: PublishUpdate is set; [signs]: the keyer encrypts and signs; [keysets]: what a mint answers to GetAllKeysets
    while the call lasts, None for an error. *)
Section Settings.
Variable collides : list str -> str -> bool.                         (* nut13.CheckCollidingKeysets(ids, {id}) gives an error *)
Variable key_of : str -> str.                                        (* PrivKeyFromBytes and Serialize *)
Variable encrypt : str -> str.
Variable tags_json : list tag -> str.
Record world := mkWorld { wd_publishes : bool; wd_signs : bool; wd_keysets : str -> option (list str) }.

(** wallet.go:259-269 *)
Fixpoint known_ids (ks : str -> option (list str)) (mints : list str) : option (list str) :=
  match mints with
  | [] => Some []
  | m :: r => match ks m with Some ids => option_map (app ids) (known_ids ks r) | None => None end
  end.
(** wallet.go:283-289 *)
Fixpoint check_ids (ids new : list str) : option (list str) :=
  match new with [] => Some ids | i :: r => if collides ids i then None else check_ids (ids ++ [i]) r end.
(** wallet.go:271-292: the mints, and whether there was no error *)
Fixpoint add_mints (ks : str -> option (list str)) (ids mints urls : list str) : list str * bool :=
  match urls with
  | [] => (mints, true)
  | url :: r =>
      let (u, ok) := normalize_http url in
      if negb ok then (mints, false)
      else if smem u mints then add_mints ks ids mints r
      else match ks u with
           | None => (mints, false)
           | Some new => match check_ids ids new with None => (mints, false) | Some ids' => add_mints ks ids' (mints ++ [u]) r end
           end
  end.
(** slices.Index and slices.Delete, wallet.go:317-319 *)
Fixpoint remove_first (u : str) (l : list str) : list str := match l with [] => [] | x :: r => if seqb x u then r else x :: remove_first u r end.
(** wallet.go:311-320 *)
Fixpoint remove_mints (mints urls : list str) : list str * bool :=
  match urls with
  | [] => (mints, true)
  | url :: r => let (u, ok) := normalize_http url in if negb ok then (mints, false) else remove_mints (remove_first u mints) r
  end.

(** What a call does: the wallet afterwards, the content it published, and whether it returned no error. *)
Record done := mkDone { dn_wallet : wmeta; dn_published : option str; dn_ok : bool }.
(** wallet.go:294-303, 322-331, 349-358 *)
Definition finish_update (wd : world) (w : wmeta) (ok : bool) : done :=
  if ok && wd_signs wd then mkDone w (Some (meta_content encrypt tags_json w)) true else mkDone w None false.
Definition with_mints (w : wmeta) (l : list str) : wmeta := mkW (wm_event w) (wm_key w) l.
(** wallet.go:254-304 *)
Definition add_mint (wd : world) (urls : list str) (w : wmeta) : done :=
  if negb (wd_publishes wd) then mkDone w None false else
  match known_ids (wd_keysets wd) (wm_mints w) with
  | None => mkDone w None false
  | Some ids => let (l, ok) := add_mints (wd_keysets wd) ids (wm_mints w) urls in finish_update wd (with_mints w l) ok
  end.
(** wallet.go:306-332 *)
Definition remove_mint (wd : world) (urls : list str) (w : wmeta) : done :=
  if negb (wd_publishes wd) then mkDone w None false else
  let (l, ok) := remove_mints (wm_mints w) urls in finish_update wd (with_mints w l) ok.
(** wallet.go:334-359 *)
Definition set_private_key (wd : world) (text : str) (w : wmeta) : done :=
  if negb (wd_publishes wd) then mkDone w None false else
  match hex_decode text with
  | Some b => if Nat.eqb (length b) 32 then finish_update wd (mkW (wm_event w) (Some (key_of b)) (wm_mints w)) true else mkDone w None false
  | None => mkDone w None false
  end.
(** A wallet in use: calls one after the other, each in a world of its own, and what was published, newest first. *)
Inductive wcall := CAdd (urls : list str) | CRemove (urls : list str) | CKey (text : str).
Definition call (wd : world) (x : wcall) (w : wmeta) : done :=
  match x with CAdd l => add_mint wd l w | CRemove l => remove_mint wd l w | CKey t => set_private_key wd t w end.
Fixpoint calls (l : list (world * wcall)) (w : wmeta) (out : list str) : wmeta * list str :=
  match l with
  | [] => (w, out)
  | (wd, x) :: r => let d := call wd x w in calls r (dn_wallet d) (match dn_published d with Some c => c :: out | None => out end)
  end.
End Settings.

(** ** Token events. [token_json], [json_token]: encoding/json of Token with its fields mint, proofs and del. *)
Record wtoken := mkWT { wt_mint : str; wt_proofs : list cproof; wt_deleted : list str; wt_minted : Z; wt_event : option event }.
Section Token.
Variable token_json : str -> list cproof -> list str -> str.
Variable json_token : str -> option (str * list cproof * list str).
Variable encrypt : str -> option str.                                (* Keyer.Encrypt to oneself *)
Variable decrypt : str -> option str.
Variable sign_event : event -> option event.                         (* Keyer.SignEvent *)
(** token.go:21-27 *)
Definition token_id (t : wtoken) : str := match wt_event t with Some e => ev_id e | None => B "<not-published>" end.
(** token.go:29-55 *)
Definition token_event (t : wtoken) : option event :=
  match encrypt (token_json (wt_mint t) (wt_proofs t) (wt_deleted t)) with
  | Some c => sign_event (mkEvent [] [] (wt_minted t) 7375 [] c [])
  | None => None
  end.
(** token.go:57-78 *)
Definition token_parse (e : event) : wtoken * bool :=
  let t0 := mkWT [] [] [] (ev_created_at e) (Some e) in
  match decrypt (ev_content e) with
  | None => (t0, false)
  | Some plain => match json_token plain with
                  | None => (t0, false)                              (* fields read before the error are left out *)
                  | Some (m, ps, del) => (mkWT (fst (normalize_http m)) ps del (ev_created_at e) (Some e), true)
                  end
  end.
End Token.

(** ** Signatures on locked proofs and their outputs. schnorr.Sign with a nil key panics. *)
Section Witness.
Variable c : curve.
Variable sha256 tag : str -> str.
Variable nonce : str -> str -> nat -> Z.
Variable tries : nat.
(** json.Marshal(nut11.P2PKWitness{Signatures: {hex}}) *)
Definition witness_json (sig : str) : str := B "{""signatures"":[""" ++ hex_encode sig ++ B """]}".
Definition sign_hash (key : option str) (h : str) : outcome str :=
  match key with
  | None => Panic
  | Some k => match schnorr_sign c tag nonce tries k h with Some s => Ok (witness_json s) | None => Err end
  end.
(** helpers.go:85-98 *)
Definition sign_input (key : option str) (secret : str) : outcome str := sign_hash key (sha256 secret).
(** helpers.go:100-114: the error of hex.DecodeString is ignored and the bytes before it are signed *)
Definition sign_output (key : option str) (b_text : str) : outcome str := sign_hash key (sha256 (hex_prefix b_text)).
End Witness.

(** ** Answers of a mint: client.go:192-216, [status] and what the body decodes to; client.go:29-42 and 52-58 *)
Definition mint_answer {A} (status : Z) (body : option A) : option A := if (status =? 200)%Z then body else None.
Record mkeys := mkKeys { mk_id : str; mk_unit : str; mk_keys : list (Z * str) }.
Definition active_keyset (status : Z) (body : option (list mkeys)) : option mkeys :=
  match mint_answer status body with Some l => find (fun k => seqb (mk_unit k) (B "sat")) l | None => None end.
Definition keyset_by_id (status : Z) (body : option (list mkeys)) : outcome (list (Z * str)) :=
  match mint_answer status body with Some (k :: _) => Ok (mk_keys k) | Some [] => Panic | None => Err end.
