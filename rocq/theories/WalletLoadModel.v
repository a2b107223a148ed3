(** nip60/wallet.go, nip60/history.go, nip61: loading a wallet from events, its metadata and history events, nutzaps. *)
From Verif Require Import Base EventModel Nip19Model Machine WalletModel.
Import ListNotations.
Open Scope Z_scope.

(** ** Deleting tokens *)
Definition has_id (id : str) (t : token) : bool := match tk_event t with Some i => seqb i id | None => false end.
(** nip60/wallet.go:235-244, from index [n] - 1 down *)
Fixpoint remove_from (n : nat) (id : str) (ts : list token) : outcome (list token) :=
  match n with
  | O => Ok ts
  | S t => match nth_error ts t with
           | None => Panic
           | Some tok => if has_id id tok then match nth_error ts (length ts - 1) with Some l => remove_from t id (removelast (upd ts t l)) | None => Panic end
                         else remove_from t id ts
           end
  end.
Definition remove_deleted (id : str) (ts : list token) : outcome (list token) := remove_from (length ts) id ts.
Fixpoint remove_all (ids : list str) (ts : list token) : outcome (list token) :=
  match ids with [] => Ok ts | i :: r => obind (remove_deleted i ts) (remove_all r) end.

(** ** Loading, nip60/wallet.go:113-226: the goroutine that waits for the end of stored events and the two that handle what comes in.
    The handlers hold the wallet's lock from beginning to end, the first goroutine holds none; each handler is cut where it has looked at [eosed].
    A panic is a state of its own. Metadata and history events do not touch this state. *)
Inductive eose_pc := Waiting | Flagged | Removing (ids : list str) | Loaded.
Inductive handler := HIdle | HToken (del : list str) (eosed : bool) | HDel (ids : list str) (eosed : bool).
Record lstate := mkL { l_tokens : list token; l_pend : list str; l_eosed : bool; l_pc : eose_pc; l_handler : handler; l_panic : bool }.
Inductive laction := LToken (t : token) | LDel (ids : list str) | LEnd | LFlag | LSnap | LRemove | LClear.
Definition apply_removal (s : lstate) (ids : list str) (k : list token -> lstate) : lstate :=
  match remove_all ids (l_tokens s) with Ok ts => k ts | _ => mkL (l_tokens s) (l_pend s) (l_eosed s) (l_pc s) (l_handler s) true end.
Definition lstep (a : laction) (s : lstate) : option lstate :=
  if l_panic s then None else
  match a, l_handler s, l_pc s with
  | LToken t, HIdle, _ =>   (* 176-193 *)
    let ts := if existsb (fun c => match tk_event t with Some i => has_id i c | None => false end) (l_tokens s) then l_tokens s else l_tokens s ++ [t] in
    Some (mkL ts (l_pend s) (l_eosed s) (l_pc s) (HToken (tk_deleted t) (l_eosed s)) false)
  | LDel ids, HIdle, _ => Some (mkL (l_tokens s) (l_pend s) (l_eosed s) (l_pc s) (HDel ids (l_eosed s)) false)   (* 144-146 *)
  | LEnd, HToken ids false, _ | LEnd, HDel ids false, _ => Some (mkL (l_tokens s) (l_pend s ++ ids) (l_eosed s) (l_pc s) HIdle false)   (* 147-149, 194-196 *)
  | LEnd, HToken ids true, _ | LEnd, HDel ids true, _ => Some (apply_removal s ids (fun ts => mkL ts (l_pend s) (l_eosed s) (l_pc s) HIdle false))   (* 150-154, 197-201 *)
  | LFlag, _, Waiting => Some (mkL (l_tokens s) (l_pend s) true Flagged (l_handler s) false)   (* 130-131 *)
  | LSnap, _, Flagged => Some (mkL (l_tokens s) (l_pend s) (l_eosed s) (Removing (l_pend s)) (l_handler s) false)   (* 134: range looks at the slice once *)
  | LRemove, _, Removing (i :: r) => Some (apply_removal s [i] (fun ts => mkL ts (l_pend s) (l_eosed s) (Removing r) (l_handler s) false))   (* 135 *)
  | LClear, _, Removing [] => Some (mkL (l_tokens s) [] (l_eosed s) Loaded (l_handler s) false)   (* 137 *)
  | _, _, _ => None
  end.
Definition lnew : lstate := mkL [] [] false Waiting HIdle false.

(** ** The two locks: Send, PayBolt11 (nip60/send.go:63-64, 112-116, 151-153, 171-173) take tokensMu and then, once or more, the wallet's lock;
    the handler of token events (nip60/wallet.go:161, 186-190, 221) takes the wallet's lock and then tokensMu. *)
Inductive who := Sender | Loader.
(** where each one is: the sender outside, with tokensMu, waiting in w.Lock, with both; the loader outside, with the wallet's lock (and whether it still has to append a token), with both *)
Inductive spc := SOut | STok | SWant | SBoth.
Inductive lpc := LOut | LWal (token : bool) | LBoth.
Record locks := mkLocks { k_wallet : option who; k_tokens : option who; k_send : spc; k_load : lpc }.
Inductive kaction := KSendStart | KSendWant | KSendLock | KSendUnlock | KSendDone | KEvent (token : bool) | KAppend | KAppended | KHandled.
Definition kstep (a : kaction) (s : locks) : option locks :=
  match a, k_send s, k_load s with
  | KSendStart, SOut, l => if k_tokens s then None else Some (mkLocks (k_wallet s) (Some Sender) STok l)
  | KSendWant, STok, l => Some (mkLocks (k_wallet s) (k_tokens s) SWant l)
  | KSendLock, SWant, l => if k_wallet s then None else Some (mkLocks (Some Sender) (k_tokens s) SBoth l)
  | KSendUnlock, SBoth, l => Some (mkLocks None (k_tokens s) STok l)
  | KSendDone, STok, l => Some (mkLocks (k_wallet s) None SOut l)
  | KEvent b, p, LOut => if k_wallet s then None else Some (mkLocks (Some Loader) (k_tokens s) p (LWal b))
  | KAppend, p, LWal true => if k_tokens s then None else Some (mkLocks (k_wallet s) (Some Loader) p LBoth)
  | KAppended, p, LBoth => Some (mkLocks (k_wallet s) None p (LWal false))
  | KHandled, p, LWal false => Some (mkLocks None (k_tokens s) p LOut)
  | _, _, _ => None
  end.
Definition unlocked : locks := mkLocks None None SOut LOut.

(** ** Metadata and history events: the keyer's encryption to oneself and the JSON of tags are given *)
Section Codec.
Variable encrypt : str -> str.
Variable decrypt : str -> option str.
Variable tags_json : list tag -> str.
Variable json_tags : str -> option (list tag).
(** secp256k1.PrivKeyFromBytes and PrivateKey.Serialize *)
Variable key_of : str -> str.

Record wmeta := mkW { wm_event : option event; wm_key : option str; wm_mints : list str }.
(** nip60/wallet.go:361-395: tags and content of the event *)
Definition meta_content (w : wmeta) : str :=
  encrypt (tags_json ((match wm_key w with Some k => [[B "privkey"; hex_encode k]] | None => [] end) ++ map (fun m => [B "mint"; m]) (wm_mints w))).
(** nip60/wallet.go:420-434 *)
Fixpoint meta_tags (ts : list tag) (mints : list str) (key : option str) : option (list str * option str) :=
  match ts with
  | [] => Some (mints, key)
  | (k :: v :: _) :: r =>
    if seqb k (B "mint") then meta_tags r (mints ++ [v]) key
    else if seqb k (B "privkey") then match hex_decode v with Some b => meta_tags r mints (Some (key_of b)) | None => None end
    else meta_tags r mints key
  | _ :: r => meta_tags r mints key
  end.
(** nip60/wallet.go:408-415, nip60/history.go:95-102 *)
Definition all_tags (e : event) (plain : str) : option (list tag) :=
  match plain with [] => Some [] | _ => match json_tags plain with Some ts => Some (ts ++ ev_tags e) | None => None end end.
(** nip60/wallet.go:397-444: the wallet afterwards, and whether there was no error *)
Definition meta_parse (w : wmeta) (e : event) : wmeta * bool :=
  let w1 := mkW (Some e) (wm_key w) (wm_mints w) in
  match decrypt (ev_content e) with
  | None => (w1, false)
  | Some plain =>
    match all_tags e plain with
    | None => (w1, false)
    | Some ts => match meta_tags ts [] None with
                 | None => (w1, false)
                 | Some (mints, key) => (mkW (Some e) (match key with Some k => Some k | None => wm_key w end) mints, true)
                 end
    end
  end.
(** nip60/wallet.go:163-175 *)
Definition meta_event (w : wmeta) (e : event) : wmeta :=
  let (w1, ok) := meta_parse w e in
  if negb ok then w1
  else if match wm_event w1 with None => true | Some e1 => ev_created_at e1 <? ev_created_at e end then fst (meta_parse w1 e) else w1.

(** nip60/history.go:12-26 *)
Record tref := mkRef { rf_id : str; rf_created : bool; rf_nutzap : bool }.
Record hentry := mkH { h_in : bool; h_amount : Z; h_refs : list tref }.
(** nip60/history.go:28-78 *)
Definition ref_tag (r : tref) : tag := [B "e"; rf_id r; []; if rf_nutzap r then B "redeemed" else if rf_created r then B "created" else B "destroyed"].
Definition hist_content (h : hentry) : str :=
  encrypt (tags_json ([[B "direction"; if h_in h then B "in" else B "out"]; [B "amount"; dec_Z (h_amount h)]] ++ map ref_tag (filter (fun r => negb (rf_nutzap r)) (h_refs h)))).
Definition hist_tags (h : hentry) : list tag := map ref_tag (filter rf_nutzap (h_refs h)).
(** nip60/history.go:104-150 *)
Fixpoint hist_fold (ts : list tag) (h : hentry) (missing : bool) : outcome (hentry * bool) :=
  match ts with
  | [] => Ok (h, missing)
  | (k :: v :: rest) :: r =>
    if seqb k (B "direction") then
      if seqb v (B "in") then hist_fold r (mkH true (h_amount h) (h_refs h)) false
      else if seqb v (B "out") then hist_fold r (mkH false (h_amount h) (h_refs h)) false else Err
    else if seqb k (B "amount") then match parse_uint v with Some a => hist_fold r (mkH (h_in h) a (h_refs h)) missing | None => Err end
    else if seqb k (B "e") then
      match rest with
      | _ :: mark :: _ =>
        if negb (valid_32byte_hex v) then Err
        else if seqb mark (B "created") then hist_fold r (mkH (h_in h) (h_amount h) (h_refs h ++ [mkRef v true false])) missing
        else if seqb mark (B "destroyed") then hist_fold r (mkH (h_in h) (h_amount h) (h_refs h ++ [mkRef v false false])) missing
        else if seqb mark (B "redeemed") then hist_fold r (mkH (h_in h) (h_amount h) (h_refs h ++ [mkRef v true true])) missing
        else Err
      | _ => Err
      end
    else hist_fold r h missing
  | _ :: r => hist_fold r h missing
  end.
(** nip60/history.go:80-161 into a fresh entry *)
Definition hist_parse (e : event) : outcome hentry :=
  match decrypt (ev_content e) with
  | None => Err
  | Some plain =>
    match all_tags e plain with
    | None => Err
    | Some ts => obind (hist_fold ts (mkH false 0 []) true) (fun r => if h_amount (fst r) =? 0 then Err else if snd r then Err else Ok (fst r))
    end
  end.
End Codec.

(** ** Nutzaps *)
Section Nutzap.
(** schnorr.ParsePubKey, btcec.ParsePubKey, NormalizeHTTPURL with its error dropped *)
Variable xonly_ok : str -> bool.
Variable parse_pub : str -> option str.
Variable norm : str -> str.

(** nip61/info.go:11-15 *)
Record info := mkInfo { i_pubkey : str; i_mints : list str; i_relays : list str }.
(** nip61/info.go:17-37, the tags *)
Definition info_tags (i : info) : list tag :=
  map (fun m => [B "mint"; m]) (i_mints i) ++ map (fun r => [B "relay"; r]) (i_relays i) ++ (match i_pubkey i with [] => [] | p => [[B "pubkey"; p]] end).
(** nip61/info.go:39-62 *)
Fixpoint info_fold (ts : list tag) (i : info) : info :=
  match ts with
  | [] => i
  | (k :: v :: rest) :: r =>
    info_fold r
      (if seqb k (B "mint") then match rest with [] => mkInfo (i_pubkey i) (i_mints i ++ [norm v]) (i_relays i)
                                 | _ => if existsb (seqb (B "sat")) rest then mkInfo (i_pubkey i) (i_mints i ++ [norm v]) (i_relays i) else i end
       else if seqb k (B "relay") then mkInfo (i_pubkey i) (i_mints i) (i_relays i ++ [v])
       else if seqb k (B "pubkey") then if valid_pubkey xonly_ok v then mkInfo v (i_mints i) (i_relays i) else i
       else i)
  | _ :: r => info_fold r i
  end.
Definition info_parse (i : info) (ts : list tag) : info := info_fold ts (mkInfo (i_pubkey i) [] (i_relays i)).

Fixpoint index_of (m : str) (l : list str) : option nat := match l with [] => None | x :: r => if seqb x m then Some O else option_map S (index_of m r) end.
(** nip61/nip61.go:111-133: the mints yielded, in order, when the consumer takes them all *)
Fixpoint eligible (theirs : list str) (ts : list token) (target : Z) (have : list Z) : list str :=
  match ts with
  | [] => []
  | t :: r =>
    match index_of (tk_mint t) theirs with
    | None => eligible theirs r target have
    | Some i => let h := w64 (nth i have 0 + amount_of (tk_proofs t)) in
                (if w64 (w64 (target * 101) / 100 + 2) <? h then [tk_mint t] else []) ++ eligible theirs r target (upd have i h)
    end
  end.
Definition eligible_mints (theirs : list str) (ts : list token) (target : Z) : list str := eligible theirs ts target (map (fun _ => 0) theirs).

(** nip60/send.go:26-31: both errors are dropped *)
Definition with_p2pk (pubkey : str) : option str := parse_pub (hex_prefix pubkey).

(** nip61/nip61.go:18-109: the proofs put into the nutzap, or nothing. An external send is tried at each mint until one gets beyond the quote.
    The consumer of the eligible mints stops at the first send that works. *)
Variable M : mints.
Variable invoice_sats : str -> outcome Z.
Fixpoint nutzap_own (known : list str) (ts : list token) (amount : Z) (pubkey : str) (id : option str) (ms : list str) : outcome (option (list token * list proof)) :=
  match ms with
  | [] => Ok None
  | m :: r => match send M known ts amount m (with_p2pk pubkey) id with
              | Ok s => Ok (Some (se_tokens s, se_proofs s))
              | Err => nutzap_own known ts amount pubkey id r
              | Panic => Panic
              end
  end.
Fixpoint nutzap_external (ts : list token) (amount : Z) (id : option str) (ms : list str) : outcome (list token * list proof) :=
  match ms with
  | [] => Err
  | m :: r => match m_mint_quote M m amount with None => nutzap_external ts amount id r | Some _ => send_external M ts m amount invoice_sats id end
  end.
Definition nutzap (known : list str) (ts : list token) (i : info) (amount : Z) (id : option str) : outcome (list token * list proof) :=
  if match i_mints i, i_pubkey i with [], _ => true | _, [] => true | _, _ => false end then Err
  else obind (nutzap_own known ts amount (i_pubkey i) id (eligible_mints (i_mints i) ts amount)) (fun o => match o with Some r => Ok r | None => nutzap_external ts amount id (i_mints i) end).

(** ** nip61/verify.go:14-78: a proof as it stands in the JSON; the curve arithmetic is [dleq_ok key proof] *)
Record zproof := mkZ { z_amount : Z; z_secret : str; z_dleq : bool; z_text : str }.   (* z_dleq: whether there is a DLEQ *)
Variable json_proof : str -> option zproof.
Variable has_key : Z -> bool.
(** the DLEQ's three numbers are hex and r is there, C decodes: what verifyProofDLEQ gets through before it needs the key *)
Variable z_parses : zproof -> bool.
Variable dleq_ok : zproof -> bool.
Fixpoint verify_fold (ts : list tag) (sats : Z) : outcome (Z * bool) :=
  match ts with
  | [] => Ok (sats, true)
  | (k :: v :: _) :: r =>
    if negb (seqb k (B "proof")) then verify_fold r sats
    else match json_proof v with
         | None => verify_fold r sats
         | Some z => if negb (z_dleq z) then Panic
                     else if negb (z_parses z) then Ok (0, false)
                     else if negb (has_key (z_amount z)) then Panic
                     else if negb (dleq_ok z) then Ok (0, false)
                     else verify_fold r (w64 (sats + z_amount z))
         end
  | _ :: r => verify_fold r sats
  end.
Definition verify_nutzap (ts : list tag) : outcome (Z * bool) := verify_fold ts 0.
End Nutzap.
