(** nip60: the ecash wallet: choosing proofs, swapping, sending, receiving, paying, invoice amounts.
    Blinding, signatures, secrets and the HTTP transport are not modelled: a mint is a set of functions from requests to answers. *)
From Verif Require Import Base.
Import ListNotations.
Open Scope Z_scope.

(** uint64 and uint arithmetic *)
Definition w64 (z : Z) : Z := z mod 18446744073709551616.
(** What the secret of a proof demands of who spends it: nothing, a signature of the owner of a key, or the preimage of a hash *)
Inductive lock := Free | P2pk (key : str) | Htlc.
(** cashu.Proof: what counts of it here is its amount, the keyset it belongs to and its lock *)
Record proof := mkP { pr_amount : Z; pr_ks : str; pr_lock : lock }.
(** cashu.BlindedMessage with the secret kept beside it *)
Record output := mkO { o_amount : Z; o_lock : lock }.
(** cashu.Proofs.Amount *)
Definition amount_of (ps : list proof) : Z := fold_left (fun a p => w64 (a + pr_amount p)) ps 0.
(** nip60/token.go:12-19; None: no event *)
Record token := mkT { tk_mint : str; tk_proofs : list proof; tk_deleted : list str; tk_event : option str }.
(** nut02.Keyset *)
Record keyset := mkK { ks_id : str; ks_fee : Z }.

(** nip60/helpers.go:25-39 *)
Fixpoint fee_sum (kss : list keyset) (ps : list proof) (n : Z) : outcome Z :=
  match ps with
  | [] => Ok n
  | p :: r => match find (fun k => seqb (ks_id k) (pr_ks p)) kss with Some k => fee_sum kss r (w64 (n + ks_fee k)) | None => Panic end
  end.
Definition calc_fee (ps : list proof) (kss : list keyset) : outcome Z := obind (fee_sum kss ps 0) (fun n => Ok (w64 (n + 999) / 1000)).

(** cashu.AmountSplit: the powers of two that make up the amount, 64 at most *)
Fixpoint split_bits (fuel : nat) (pos a : Z) : list Z :=
  match fuel with
  | O => []
  | S f => if a =? 0 then [] else (if Z.odd a then [2 ^ pos] else []) ++ split_bits f (pos + 1) (a / 2)
  end.
Definition amount_split (a : Z) : list Z := split_bits 64 0 a.

(** nip60/swap.go:115-162: the outputs to ask for; createBlindedMessages (nip60/helpers.go:41-83) gives each the same lock *)
Definition split_amounts (kss : list keyset) (ps : list proof) (target : Z) (k : lock) : outcome (list output * list output) :=
  let total := amount_of ps in
  let outs a := map (fun x => mkO x k) (amount_split a) in
  obind (calc_fee ps kss) (fun fee =>
  if target <? total then Ok (outs target, outs (w64 (total - target - fee)))
  else if target =? total then Ok (outs (w64 (target - fee)), outs 0)
  else Err).

(** A mint's signature on an output: its amount, its keyset, and whether it checks out (DLEQ, point decoding) *)
Record signature := mkSig { sg_amount : Z; sg_ks : str; sg_good : bool }.
(** What the mints of the world answer *)
Record mints := mkMints {
  m_keysets : str -> option (list keyset);                       (* GetAllKeysets *)
  m_active : str -> option (str * (Z -> bool));                  (* GetActiveKeyset and ParseKeysetKeys: its id and the amounts it has keys for *)
  m_swap : str -> list proof -> option str -> list output -> option (list signature); (* PostSwap: the inputs, the key that signed them, the outputs *)
  m_info : str -> option (bool * bool);                          (* GetMintInfo: supports P2PK, supports change after melting *)
  m_melt_quote : str -> str -> option (Z * Z);                   (* PostMeltQuoteBolt11: amount, fee reserve *)
  m_melt : str -> str -> list proof -> list output -> option (bool * list signature); (* PostMeltBolt11 until it is settled: paid, change *)
  m_mint_quote : str -> Z -> option str;                         (* PostMintQuoteBolt11: the invoice *)
  m_mint : str -> str -> list output -> option (list signature);      (* GetMintQuoteState paid and PostMintBolt11, for the invoice *)
  m_collide : list str -> str -> bool                            (* nut13.CheckCollidingKeysets *)
}.

Section Wallet.
Variable M : mints.

(** nip60/helpers.go:116-167: the amount and keyset are the mint's, the secret is ours *)
Fixpoint construct (has : Z -> bool) (outs : list output) (sigs : list signature) {struct sigs} : outcome (list proof) :=
  match sigs with
  | [] => Ok []
  | s :: r =>
    if negb (has (sg_amount s)) then Err
    else match outs with
         | [] => Panic
         | o :: outs' => if negb (sg_good s) then Err else obind (construct has outs' r) (fun ps => Ok (mkP (sg_amount s) (sg_ks s) (o_lock o) :: ps))
         end
  end.

(** nip60/swap.go:29-54: keysets of the other mints first, then of this one, one by one *)
Fixpoint other_ids (ms : list str) (mint : str) : option (list str) :=
  match ms with
  | [] => Some []
  | m :: r => if seqb m mint then other_ids r mint else
      match m_keysets M m, other_ids r mint with Some ks, Some l => Some (map ks_id ks ++ l) | _, _ => None end
  end.
Fixpoint collisions (ids : list str) (kss : list keyset) : bool :=
  match kss with [] => false | k :: r => m_collide M ids (ks_id k) || collisions (ids ++ [ks_id k]) r end.
(** nip60/swap.go:22-107; [signer]: the key that signed the inputs. A slice beyond the signatures received is taken to panic
    (with spare capacity in the decoded slice it would be an error instead). *)
Definition swap_proofs (known : list str) (mint : str) (ps : list proof) (target : Z) (k : lock) (signer : option str) : outcome (list proof * list proof) :=
  match other_ids known mint, m_keysets M mint with
  | Some ids, Some kss =>
    if collisions ids kss then Err
    else match m_active M mint with
    | None => Err
    | Some (ks, has) =>
      obind (split_amounts kss ps target k) (fun out =>
      match m_swap M mint ps signer (fst out ++ snd out) with
      | None => Err
      | Some sigs =>
        let n := length (fst out) in
        if Nat.ltb (length sigs) n then Panic
        else obind (construct has (fst out) (firstn n sigs)) (fun principal =>
             obind (construct has (snd out) (skipn n sigs)) (fun change => Ok (principal, change)))
      end)
    end
  | _, _ => Err
  end.

(** nip60/send.go:45-51 *)
Record chosen := mkCh { ch_mint : str; ch_idx : list nat; ch_proofs : list proof; ch_keysets : list keyset }.
Fixpoint get_part (m : str) (l : list (str * chosen)) : option chosen := match l with [] => None | (k, c) :: r => if seqb k m then Some c else get_part m r end.
(** nip60/send.go:189-234 *)
Fixpoint choose (amount : Z) (specific : str) (exclude : list str) (i : nat) (ts : list token) (by_mint : list (str * chosen)) : outcome (chosen * Z) :=
  match ts with
  | [] => Err
  | t :: r =>
    if negb (seqb specific []) && negb (seqb (tk_mint t) specific) then choose amount specific exclude (S i) r by_mint
    else if existsb (seqb (tk_mint t)) exclude then choose amount specific exclude (S i) r by_mint
    else
      match (match get_part (tk_mint t) by_mint with Some p => Some p | None => option_map (mkCh (tk_mint t) [] []) (m_keysets M (tk_mint t)) end) with
      | None => Err
      | Some p =>
        let p' := mkCh (ch_mint p) (ch_idx p ++ [i]) (ch_proofs p ++ tk_proofs t) (ch_keysets p) in
        if amount <=? amount_of (ch_proofs p') then
          obind (calc_fee (ch_proofs p') (ch_keysets p')) (fun fee =>
            if w64 (amount + fee) <=? amount_of (ch_proofs p') then Ok (p', fee)
            else choose amount specific exclude (S i) r ((tk_mint t, p') :: by_mint))
        else choose amount specific exclude (S i) r ((tk_mint t, p') :: by_mint)
      end
  end.
Definition get_proofs (ts : list token) (amount : Z) (specific : str) (exclude : list str) : outcome (chosen * Z) := choose amount specific exclude 0 ts [].

Fixpoint unused (i : nat) (used : list nat) (ts : list token) : list token :=
  match ts with [] => [] | t :: r => (if existsb (Nat.eqb i) used then [] else [t]) ++ unused (S i) used r end.
Fixpoint used_ids (i : nat) (used : list nat) (ts : list token) : list str :=
  match ts with [] => [] | t :: r => (if existsb (Nat.eqb i) used then match tk_event t with Some id => [id] | None => [] end else []) ++ used_ids (S i) used r end.
(** nip60/send.go:121-187: the tokens afterwards, the event ids for which deletions are published and the change token, whose event gets the id [id] (None: it cannot be made) *)
Definition save_change (ts : list token) (mint : str) (change : list proof) (used : list nat) (id : option str) : outcome (list token * list str * option token) :=
  match change with
  | [] => Ok (ts, used_ids 0 used ts, None)
  | _ => match id with
         | None => Err
         | Some id => let t := mkT mint change [] (Some id) in Ok (unused 0 used ts ++ [t], used_ids 0 used ts, Some t)
         end
  end.
(** nip60/send.go:53-119, without a refund key: the proofs to send, their mint, the tokens afterwards and the amount written to the history *)
Record sent := mkSent { se_proofs : list proof; se_mint : str; se_tokens : list token; se_history : Z; se_deleted : list str; se_change : option token }.
Definition send (known : list str) (ts : list token) (amount : Z) (specific : str) (p2pk : option str) (id : option str) : outcome sent :=
  obind (get_proofs ts amount specific []) (fun cf =>
  let c := fst cf in
  if (match p2pk with Some _ => true | None => false end) && negb (match m_info M (ch_mint c) with Some (b, _) => b | None => false end) then Err
  else obind (swap_proofs known (ch_mint c) (ch_proofs c) amount (match p2pk with Some k => P2pk k | None => Free end) None) (fun pc =>
  obind (save_change ts (ch_mint c) (snd pc) (ch_idx c) id) (fun r =>
  Ok (mkSent (fst pc) (ch_mint c) (fst (fst r)) (w64 (amount_of (ch_proofs c) - amount_of (snd pc))) (snd (fst r)) (snd r))))).

(** nip60/lightning-swap.go:17-22 *)
Inductive swap_status := SwapNothing | SwapAnother | SwapStore | SwapManual.
(** nip60/lightning-swap.go:32-71: ten tries at a percentage that sinks; what is asked from the target, and the amount to redeem there *)
Fixpoint melt_quotes (fuel : nat) (total fee pct : Z) (from to : str) : swap_status + (str * Z * Z) :=
  match fuel with
  | O => inl SwapAnother
  | S f =>
    let amount := w64 (total * pct) / 100 in
    match m_mint_quote M to (w64 (amount - fee)) with
    | None => inl SwapAnother
    | Some invoice =>
      match m_melt_quote M from invoice with
      | None => inl SwapStore
      | Some (a, reserve) => if total <? w64 (w64 (a + reserve) + fee) then melt_quotes f total fee (pct - 1) from to else inr (invoice, amount, w64 (amount - fee))
      end
    end
  end.
(** nip60/lightning-swap.go:108-167; more signatures than outputs, which would panic, are taken as an error *)
Definition redeem (mint invoice : str) (amount : Z) : option (list proof) :=
  match m_active M mint with
  | None => None
  | Some (_, has) =>
    let outs := map (fun x => mkO x Free) (amount_split amount) in
    match m_mint M mint invoice outs with
    | None => None
    | Some sigs => match construct has outs sigs with Ok ps => Some ps | _ => None end
    end
  end.
(** nip60/lightning-swap.go:25-106; a melt in an unknown state and one that is never settled are not modelled *)
Definition melt_mint (ps : list proof) (from : str) (kss : list keyset) (to : str) : outcome (swap_status + list proof) :=
  obind (calc_fee ps kss) (fun fee =>
  Ok (match melt_quotes 10 (amount_of ps) fee 99 from to with
      | inl s => inl s
      | inr (invoice, amount, _) =>
        match m_melt M from invoice ps [] with
        | Some (true, _) => match redeem to invoice amount with Some q => inr q | None => inl SwapManual end
        | _ => inl SwapStore
        end
      end)).
(** nip60/receive.go:91-122 *)
Fixpoint try_mints (ps : list proof) (from : str) (kss : list keyset) (dest : list str) : outcome (str * list proof) :=
  match dest with
  | [] => Ok (from, ps)
  | to :: r => obind (melt_mint ps from kss to) (fun x =>
      match x with
      | inr q => Ok (to, q)
      | inl SwapAnother => try_mints ps from kss r
      | inl SwapStore => Ok (from, ps)
      | inl _ => Err
      end)
  end.
(** nip60/receive.go:53-72: locked proofs are signed with the wallet's key (None: no key), whoever they are locked to *)
Fixpoint sign_inputs (key : option str) (ps : list proof) (signer : option str) : outcome (option str) :=
  match ps with
  | [] => Ok signer
  | p :: r => match pr_lock p, key with
              | P2pk _, None => Panic
              | P2pk _, Some k => sign_inputs key r (Some k)
              | Htlc, _ => Err
              | Free, _ => sign_inputs key r signer
              end
  end.
(** nip60/receive.go:33-161; [source]: the normalised mint, [id]: the id of the new token's event *)
Definition receive (known : list str) (key : option str) (ts : list token) (ps : list proof) (source : str) (dest : list str) (id : option str) : outcome (list token * Z) :=
  obind (sign_inputs key ps None) (fun signer =>
  match m_keysets M source with
  | None => Err
  | Some kss =>
    obind (swap_proofs known source ps (amount_of ps) Free signer) (fun pc =>
    obind (if existsb (seqb source) dest then try_mints (fst pc) source kss dest else Ok (source, fst pc)) (fun mp =>
    match id with None => Err | Some id => Ok (ts ++ [mkT (fst mp) (snd mp) [] (Some id)], amount_of (snd mp)) end))
  end).

(** nip60/pay.go:41-73: five tries; the chosen proofs and the amount to be kept back from the change *)
Fixpoint pay_quotes (fuel : nat) (ts : list token) (invoice : str) (sats abs : Z) (specific : str) (exclude : list str) : outcome (chosen * Z) :=
  match fuel with
  | O => Err
  | S f =>
    obind (get_proofs ts (w64 (w64 (sats * 101) / 100 + abs)) specific exclude) (fun cf =>
    let c := fst cf in let fee := snd cf in
    if negb (match m_info M (ch_mint c) with Some (_, b) => b | None => false end) then pay_quotes f ts invoice sats abs specific (exclude ++ [ch_mint c])
    else match m_melt_quote M (ch_mint c) invoice with
    | None => Err
    | Some (a, reserve) =>
      if amount_of (ch_proofs c) <? w64 (w64 (a + reserve) + fee) then pay_quotes f ts invoice sats (abs + 1) specific exclude
      else Ok (c, w64 (sats + fee))
    end)
  end.
(** nip60/pay.go:77-143; the error of splitIntoPrincipalAndChange is not looked at *)
Definition pay (ts : list token) (invoice : str) (sats : Z) (specific : str) (id : option str) : outcome sent :=
  obind (pay_quotes 5 ts invoice sats 1 specific []) (fun ck =>
  let c := fst ck in
  match m_active M (ch_mint c) with
  | None => Err
  | Some (_, has) =>
    match split_amounts (ch_keysets c) (ch_proofs c) (snd ck) Free with
    | Panic => Panic
    | r =>
      let outs := match r with Ok (_, ch) => ch | _ => [] end in
      match m_melt M (ch_mint c) invoice (ch_proofs c) outs with
      | Some (true, sigs) =>
        obind (construct has outs sigs) (fun change =>
        obind (save_change ts (ch_mint c) change (ch_idx c) id) (fun r =>
        Ok (mkSent [] (ch_mint c) (fst (fst r)) (w64 (amount_of (ch_proofs c) - amount_of change)) (snd (fst r)) (snd r))))
      | _ => Err
      end
    end
  end).
(** nip60/send-external.go:12-36; [invoice_sats]: GetSatoshisAmountFromBolt11 of the invoice *)
Definition send_external (ts : list token) (mint : str) (target : Z) (invoice_sats : str -> outcome Z) (id : option str) : outcome (list token * list proof) :=
  match m_mint_quote M mint target with
  | None => Err
  | Some invoice =>
    obind (invoice_sats invoice) (fun sats =>
    obind (pay ts invoice sats [] id) (fun s =>
    match redeem mint invoice target with Some ps => Ok (se_tokens s, ps) | None => Err end))
  end.
End Wallet.

(** nip60/wallet.go:246-252 *)
Definition balance (ts : list token) : Z := fold_left (fun a t => w64 (a + amount_of (tk_proofs t))) ts 0.

(** ** Invoice amounts, nip60/helpers.go:203-255 *)
(** strings.LastIndex(s, "1") *)
Fixpoint last_one (s : str) (i : nat) (best : option nat) : option nat :=
  match s with [] => best | c :: r => last_one r (S i) (if ceqb c "1"%char then Some i else best) end.
Definition is_dec (c : ascii) : bool := (48 <=? N_of_ascii c)%N && (N_of_ascii c <=? 57)%N.
Definition sats_of (bolt11 : str) : outcome Z :=
  if (length bolt11 <? 50)%nat then Err
  else match last_one (firstn 50 bolt11) 0 None with
  | None => Err
  | Some idx =>
    let hrp := firstn idx bolt11 in
    if negb (has_prefix hrp (B "lnbc")) then Err
    else
      let amount := skipn 4 hrp in
      match rev amount with
      | [] => Ok 0
      | c :: before =>
        let num := if is_dec c then amount else rev before in
        match num with
        | [] => Ok 0
        | _ => match parse_uint num with
               | None => Err
               | Some am => Ok (if ceqb c "m"%char then w64 (am * 100000) else if ceqb c "u"%char then w64 (am * 100)
                               else if ceqb c "n"%char then am / 10 else if ceqb c "p"%char then am / 10000 else w64 (am * 100000000))
               end
        end
      end
  end.
