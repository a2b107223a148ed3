(** bech32 as used by /repo/nip19: github.com/btcsuite/btcd/btcutil/bech32 (third party), functions Encode, DecodeNoLimit and
    ConvertBits, re-modelled from their known source. Both checksum constants (bech32 and bech32m) are accepted when decoding. *)
From Verif Require Import Base.
Local Open Scope N_scope.

Definition charset : str := B "qpzry9x8gf2tvdw0s3jn54khce6mua7l".
(** gen *)
Definition gen (i : N) : N :=
  match i with 0 => 0x3b6a57b2 | 1 => 0x26508e6d | 2 => 0x1ea119fa | 3 => 0x3d4233dd | _ => 0x2a1462b3 end.
(** One round of bech32Polymod: check' = (check & 0x1ffffff) << 5 ^ v, then gen[i] for each of the five top bits. *)
Definition pick (b : bool) (g : N) : N := if b then g else 0.
Definition gens (b : N) : N :=
  N.lxor (pick (N.testbit b 0) (gen 0)) (N.lxor (pick (N.testbit b 1) (gen 1)) (N.lxor (pick (N.testbit b 2) (gen 2))
    (N.lxor (pick (N.testbit b 3) (gen 3)) (pick (N.testbit b 4) (gen 4))))).
Definition pstep (check v : N) : N :=
  N.lxor (N.lxor (N.shiftl (N.land check 0x1ffffff) 5) v) (gens (N.shiftr check 25)).
Definition feed (check : N) (vs : list N) : N := fold_left pstep vs check.

(** The human-readable part enters as its high bits, a zero, and its low bits. *)
Definition expand (hrp : str) : list N := map (fun c => N.shiftr (val c) 5) hrp ++ [0] ++ map (fun c => N.land (val c) 31) hrp.
(** bech32Polymod(hrp, values, checksum) *)
Definition polymod (hrp : str) (values : list N) : N := feed 1 (expand hrp ++ values).

Definition char_of (v : N) : ascii := nth (N.to_nat v) charset "q"%char.
(** writeBech32Checksum, version 0 *)
Definition six : list N := [0; 0; 0; 0; 0; 0].
Definition checksum (hrp : str) (data : list N) : list N :=
  let p := N.lxor (polymod hrp (data ++ six)) 1 in
  map (fun i => N.land (N.shiftr p (5 * i)) 31) [5; 4; 3; 2; 1; 0].

(** strings.ToLower, ASCII letters only (other bytes are refused by the decoder anyway). *)
Definition lower (c : ascii) : ascii := if (65 <=? val c) && (val c <=? 90) then byte_of (val c + 32) else c.
Definition is_lower_letter (c : ascii) : bool := (97 <=? val c) && (val c <=? 122).
Definition is_upper_letter (c : ascii) : bool := (65 <=? val c) && (val c <=? 90).

(** Encode *)
Definition encode (hrp : str) (data : list N) : outcome str :=
  if forallb (fun b => b <? 32) data then
    Ok (map lower hrp ++ "1"%char :: map char_of data ++ map char_of (checksum (map lower hrp) data))
  else Err.

(** strings.IndexByte(charset, c) *)
Fixpoint char_index (l : str) (c : ascii) (n : N) : option N :=
  match l with [] => None | x :: l' => if ceqb x c then Some n else char_index l' c (n + 1) end.
Definition value_of (c : ascii) : option N := char_index charset c 0.
(** toBytes *)
Fixpoint to_values (s : str) : option (list N) :=
  match s with
  | [] => Some []
  | c :: r => match value_of c, to_values r with Some v, Some vs => Some (v :: vs) | _, _ => None end
  end.
(** strings.LastIndexByte(bech, '1'): the parts before and after it *)
Fixpoint split_last (s : str) : option (str * str) :=
  match s with
  | [] => None
  | c :: r =>
    match split_last r with
    | Some (a, b) => Some (c :: a, b)
    | None => if ceqb c "1"%char then Some ([], r) else None
    end
  end.
Definition bech32m : N := 0x2bc830a3.
(** decodeNoLimit *)
Definition decode (bech : str) : outcome (str * list N) :=
  if Nat.ltb (length bech) 8 then Err
  else if negb (forallb (fun c => (33 <=? val c) && (val c <=? 126)) bech) then Err
  else if existsb is_lower_letter bech && existsb is_upper_letter bech then Err
  else
    match split_last (map lower bech) with
    | None => Err
    | Some (hrp, data) =>
      if Nat.eqb (length hrp) 0 || Nat.ltb (length data) 6 then Err
      else
        match to_values data with
        | None => Err
        | Some vs =>
          if (polymod hrp vs =? 1) || (polymod hrp vs =? bech32m) then Ok (hrp, firstn (length vs - 6) vs) else Err
        end
    end.

(** ConvertBits: the inner loop over one input byte. [next] and [filled] are nextByte and filledBits; the byte operations
    wrap at 256. [fuel]: each round extracts at least one bit. *)
Definition shl8 (x n : N) : N := N.land (N.shiftl x n) 255.
Fixpoint extract (fuel : nat) (to_bits b rem next filled : N) : list N * N * N :=
  match fuel with
  | O => ([], next, filled)
  | S f =>
    if rem =? 0 then ([], next, filled)
    else
      let n := N.min rem (to_bits - filled) in
      let next := N.lor (shl8 next n) (N.shiftr b (8 - n)) in
      let b := shl8 b n in
      let filled := filled + n in
      if filled =? to_bits
      then let '(out, nx, fl) := extract f to_bits b (rem - n) 0 0 in (next :: out, nx, fl)
      else extract f to_bits b (rem - n) next filled
  end.
Definition regroup1 (from_bits to_bits b next filled : N) : list N * N * N :=
  extract 8 to_bits (shl8 b (8 - from_bits)) from_bits next filled.
Fixpoint regroup (from_bits to_bits : N) (data : list N) (next filled : N) : list N * N * N :=
  match data with
  | [] => ([], next, filled)
  | b :: r =>
    let '(o1, next, filled) := regroup1 from_bits to_bits b next filled in
    let '(o2, next, filled) := regroup from_bits to_bits r next filled in
    (o1 ++ o2, next, filled)
  end.
Definition convert_bits (data : list N) (from_bits to_bits : N) (pad : bool) : outcome (list N) :=
  let '(out, next, filled) := regroup from_bits to_bits data 0 0 in
  if pad && negb (filled =? 0) then Ok (out ++ [shl8 next (to_bits - filled)])
  else if negb (filled =? 0) && ((4 <? filled) || negb (next =? 0)) then Err
  else Ok out.

Example bech_demo : decode (B "a12uel5l") = Ok (B "a", []).
Proof. vm_compute. reflexivity. Qed.
Example bech_demo2 : encode (B "abcdef") (map N.of_nat (seq 0 32)) = Ok (B "abcdef1qpzry9x8gf2tvdw0s3jn54khce6mua7lmqqqxw").
Proof. vm_compute. reflexivity. Qed.
(* BIP-350 vector, accepted as well *)
Example bech_demo3 : decode (B "a1lqfn3a") = Ok (B "a", []).
Proof. vm_compute. reflexivity. Qed.
