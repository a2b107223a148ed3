(** Set reconciliation: nip77/negentropy (encoding.go, hex.go, types.go,
    negentropy.go, storage/accumulator.go, storage/vector/vector.go). *)
From Verif Require Import Base Nip19Model.
Import ListNotations.
Local Open Scope Z_scope.

Notation "'do' x <- e ; f" := (obind e (fun x => f)) (at level 200, x pattern, e at level 100, f at level 200).

(** ** Items and bounds *)

(** negentropy/types.go:34-37 Item and :48 Bound (a Bound is a wrapped Item;
    its ID may be a prefix). *)
Record item := mkItem { it_ts : Z; it_id : str }.

(** types.go:39-44 ItemCompare, as a comparison. *)
Definition item_compare (a b : item) : comparison :=
  if Z.eqb (it_ts a) (it_ts b) then scmp (it_id a) (it_id b) else Z.compare (it_ts a) (it_ts b).

(** negentropy.go:14 maxTimestamp, :18 InfiniteBound; the zero Bound of :108. *)
Definition max_ts : Z := 9223372036854775807.
Definition infinite_bound : item := mkItem max_ts [].
Definition zero_bound : item := mkItem 0 [].

(** int64 wrap-around. *)
Definition wrap64 (z : Z) : Z := (z + 9223372036854775808) mod 18446744073709551616 - 9223372036854775808.

(** ** Varints *)

(** encoding.go:131-135: the loop that fills an 8 byte buffer from the end.
    [fuel] is the room left in the buffer; running out of it is the write to
    result[-1]. A negative [n] never reaches zero under [>>=], so it always
    runs out; the caller handles that case. *)
Fixpoint varint_digits (fuel : nat) (n : N) (acc : list N) : option (list N) :=
  if (n =? 0)%N then Some acc
  else match fuel with
       | O => None
       | S f => varint_digits f (n / 128) ((n mod 128)%N :: acc)
       end.

(** encoding.go:137-140: the continuation bit on all bytes but the last. *)
Fixpoint mark (l : list N) : list N :=
  match l with
  | [] => []
  | [d] => [d]
  | d :: r => (d + 128)%N :: mark r
  end.

(** encoding.go:123-143 EncodeVarInt *)
Definition encode_varint (n : Z) : outcome str :=
  if n =? 0 then Ok [byte_of 0]
  else if n <? 0 then Panic
  else match varint_digits 8 (Z.to_N n) [] with
       | None => Panic
       | Some l => Ok (map byte_of (mark l))
       end.

(** encoding.go:114-121 writeVarInt, hex.go:68-72 WriteBytes: what is appended
    to the output. *)
Definition write_varint (n : Z) : outcome str :=
  do b <- encode_varint n; Ok (hex_encode b).

(** hex.go:62-66 WriteByte *)
Definition write_byte (n : N) : str := hex_byte (byte_of n).

(** hex.go:23-36 ReadHexBytes for one byte and ReadHexByte. The reader is the
    unread rest of the text: after a failed read the code never reads again. *)
Definition read_hex_byte (r : str) : outcome (N * str) :=
  match r with
  | a :: b :: r' => match hex_val a, hex_val b with
                    | Some x, Some y => Ok ((16 * x + y)%N, r')
                    | _, _ => Err
                    end
  | _ => Err
  end.

(** hex.go:38-44 ReadString: a negative size makes the slice bounds cross.
    (A size within one message length of 2^63 wraps the index and panics too;
    here it is an error.) *)
Definition read_string (size : Z) (r : str) : outcome (str * str) :=
  if size <? 0 then Panic
  else if Z.of_nat (length r) <? size then Err
  else Ok (firstn (Z.to_nat size) r, skipn (Z.to_nat size) r).

(** encoding.go:96-112 readVarInt; the shift is on a 64 bit int. Each step
    consumes two characters, so the length of the text is enough fuel. *)
Fixpoint read_varint_loop (fuel : nat) (res : Z) (r : str) : outcome (Z * str) :=
  match fuel with
  | O => Err
  | S f =>
      do (b, r') <- read_hex_byte r;
      let res' := wrap64 (res * 128 + Z.of_N (b mod 128)) in
      if (b <? 128)%N then Ok (res', r') else read_varint_loop f res' r'
  end.

Definition read_varint (r : str) : outcome (Z * str) := read_varint_loop (S (length r)) 0 r.

(** ** Bounds with delta coded timestamps *)

(** encoding.go:53-70 writeTimestamp: text appended and the new lastTimestampOut. *)
Definition write_timestamp (last ts : Z) : outcome (str * Z) :=
  if ts =? max_ts then do s <- write_varint 0; Ok (s, max_ts)
  else do s <- write_varint (wrap64 (wrap64 (ts - last) + 1)); Ok (s, ts).

(** encoding.go:72-76 writeBound *)
Definition write_bound (last : Z) (b : item) : outcome (str * Z) :=
  do (s, last') <- write_timestamp last (it_ts b);
  do n <- write_varint (Z.of_nat (length (it_id b)) / 2);
  Ok (s ++ n ++ it_id b, last').

(** encoding.go:9-32 readTimestamp *)
Definition read_timestamp (last : Z) (r : str) : outcome (Z * str) :=
  do (delta, r') <- read_varint r;
  if delta =? 0 then Ok (max_ts, r')
  else Ok (wrap64 (last + wrap64 (delta - 1)), r').

(** encoding.go:34-51 readBound; lastTimestampIn becomes the timestamp read. *)
Definition read_bound (last : Z) (r : str) : outcome (item * str) :=
  do (ts, r1) <- read_timestamp last r;
  do (n, r2) <- read_varint r1;
  do (id, r3) <- read_string (wrap64 (n * 2)) r2;
  Ok (mkItem ts id, r3).

(** encoding.go:85-90: number of equal leading bytes among the first [n]. *)
Fixpoint shared_prefix (n : nat) (c p : str) : outcome nat :=
  match n with
  | O => Ok O
  | S k => match c, p with
           | c1 :: c2 :: c', p1 :: p2 :: p' =>
               if ceqb c1 p1 && ceqb c2 p2 then do m <- shared_prefix k c' p'; Ok (S m) else Ok O
           | _, _ => Panic
           end
  end.

(** encoding.go:78-94 getMinimalBound *)
Definition get_minimal_bound (prev curr : item) : outcome item :=
  if negb (it_ts curr =? it_ts prev) then Ok (mkItem (it_ts curr) [])
  else do k <- shared_prefix 16 (it_id curr) (it_id prev);
       let n := ((k + 1) * 2)%nat in
       if (length (it_id curr) <? n)%nat then Panic
       else Ok (mkItem (it_ts curr) (firstn n (it_id curr))).

(** ** The accumulator *)

(** binary.LittleEndian.Uint32 and PutUint32. *)
Definition word_of (b0 b1 b2 b3 : ascii) : N :=
  (val b0 + 256 * val b1 + 65536 * val b2 + 16777216 * val b3)%N.
Definition word_bytes (w : N) : str :=
  [byte_of (w mod 256); byte_of (w / 256 mod 256); byte_of (w / 65536 mod 256); byte_of (w / 16777216 mod 256)].

(** storage/accumulator.go:25-41 AddBytes: one step per 32 bit word. Both
    arguments have 32 bytes. *)
Fixpoint add_words (carry : N) (acc other : str) : str :=
  match acc, other with
  | a0 :: a1 :: a2 :: a3 :: acc', o0 :: o1 :: o2 :: o3 :: other' =>
      let orig := word_of a0 a1 a2 a3 in
      let otherv := word_of o0 o1 o2 o3 in
      let next := ((orig + carry + otherv) mod 4294967296)%N in
      word_bytes next ++ add_words (if (next <? orig)%N || (next <? otherv)%N then 1%N else 0%N) acc' other'
  | _, _ => acc
  end.
Definition add_bytes (acc other : str) : str := add_words 0 acc other.

(** accumulator.go:15-19 Reset *)
Definition acc_zero : str := repeat (byte_of 0) 32.

Section Neg.
(** crypto/sha256.Sum256 *)
Variable sha : str -> str.

(** accumulator.go:43-48 GetFingerprint *)
Definition get_fingerprint (acc : str) (n : Z) : outcome str :=
  do v <- encode_varint n;
  Ok (hex_encode (firstn 16 (sha (acc ++ v)))).

(** ** Vector storage (a sealed vector is its list of items) *)

(** vector.go:28-35 Insert *)
Definition insert (items : list item) (ts : Z) (id : str) : outcome (list item) :=
  if negb (Nat.eqb (length id) 64) then Panic else Ok (items ++ [mkItem ts id]).

(** vector.go:39-45 Seal. slices.SortFunc gives some ordered permutation; as
    items that compare equal are identical there is only one, computed here by
    insertion. *)
Fixpoint insert_sorted (x : item) (l : list item) : list item :=
  match l with
  | [] => [x]
  | y :: l' => match item_compare x y with Gt => y :: insert_sorted x l' | _ => x :: l end
  end.
Definition seal (items : list item) : list item := fold_right insert_sorted [] items.

(** vector.go:54-62 Range: the items with their indices. An index past the end
    panics; all callers stay inside. *)
Definition range (items : list item) (begin end_ : nat) : list item :=
  firstn (end_ - begin) (skipn begin items).

(** slices.BinarySearchFunc (Go standard library), the position only. *)
Fixpoint bsearch (fuel : nat) (x : list item) (target : item) (i j : nat) : nat :=
  match fuel with
  | O => i
  | S f =>
      if (i <? j)%nat then
        let h := ((i + j) / 2)%nat in
        match nth_error x h with
        | None => i
        | Some y => match item_compare y target with
                    | Lt => bsearch f x target (h + 1) j
                    | _ => bsearch f x target i h
                    end
        end
      else i
  end.

(** vector.go:64-67 FindLowerBound *)
Definition find_lower_bound (items : list item) (begin end_ : nat) (bound : item) : nat :=
  let x := range items begin end_ in
  (begin + bsearch (length x) x bound 0 (length x))%nat.

(** hex.Decode into a 32 byte buffer: stops at the first bad character, leaving
    the rest of the buffer as it was. *)
Definition decode_into (tmp id : str) : str :=
  hex_prefix id ++ skipn (length (hex_prefix id)) tmp.

(** vector.go:69-79 Fingerprint *)
Fixpoint accumulate (tmp acc : str) (l : list item) : str :=
  match l with
  | [] => acc
  | it :: r => let tmp' := decode_into tmp (it_id it) in accumulate tmp' (add_bytes acc tmp') r
  end.
Definition fingerprint (items : list item) (begin end_ : nat) : outcome str :=
  get_fingerprint (accumulate acc_zero acc_zero (range items begin end_)) (Z.of_nat end_ - Z.of_nat begin).

(** ** The protocol *)

(** negentropy.go:26-38 New: a limit of 0 means none ([None] here: no message
    reaches MaxInt bytes). *)
Definition new_limit (limit : Z) : outcome (option Z) :=
  if limit =? 0 then Ok None else if limit <? 4096 then Panic else Ok (Some limit).

(** The test [n.frameSizeLimit-200 < a.Len()/2 + b.Len()/2] of negentropy.go:201 and :222. *)
Definition over_limit (limit : option Z) (a b : str) : bool :=
  match limit with
  | None => false
  | Some l => l - 200 <? Z.of_nat (length a) / 2 + Z.of_nat (length b) / 2
  end.

(** negentropy.go:249-250: the bucket sizes of SplitRange. *)
Definition buckets : nat := 16.
Definition bucket_size (num i : nat) : nat :=
  (num / buckets + if (i <? num mod buckets)%nat then 1 else 0)%nat.

(** negentropy.go:254-285: the loop over buckets; [i] is the bucket, [k] the
    number of buckets left. *)
Fixpoint split_loop (items : list item) (num upper : nat) (ub : item) (last : Z)
    (k i curr : nat) : outcome (str * Z) :=
  match k with
  | O => Ok ([], last)
  | S k' =>
      let next := (curr + bucket_size num i)%nat in
      do fp <- fingerprint items curr next;
      do nb <- (if Nat.eqb next upper then Ok ub
                else match nth_error items (next - 1), nth_error items next with
                     | Some p, Some c => get_minimal_bound p c
                     | _, _ => Panic
                     end);
      do (b, last1) <- write_bound last nb;
      do (rest, last2) <- split_loop items num upper ub last1 k' (i + 1) next;
      Ok (b ++ write_byte 1 ++ fp ++ rest, last2)
  end.

Definition ids_text (l : list item) : str := flat_map it_id l.

(** negentropy.go:240-287 SplitRange: text appended and the new lastTimestampOut. *)
Definition split_range (items : list item) (lower upper : nat) (ub : item) (last : Z) : outcome (str * Z) :=
  let num := (upper - lower)%nat in
  if (num <? buckets * 2)%nat then
    do (b, last1) <- write_bound last ub;
    do n <- write_varint (Z.of_nat num);
    Ok (b ++ write_byte 2 ++ n ++ ids_text (range items lower upper), last1)
  else split_loop items num upper ub last buckets 0 lower.

(** negentropy.go:56-65 Start *)
Definition protocol_version : N := 97.
Definition start (items : list item) : outcome str :=
  do (s, _) <- split_range items 0 (length items) infinite_bound 0;
  Ok (write_byte protocol_version ++ s).

(** negentropy.go:157-163: reading the ids of an IdList. (The map is made with
    room for [numIds] entries before anything is read: not modelled.) *)
Fixpoint read_ids (fuel : nat) (n : Z) (r : str) : outcome (list str * str) :=
  if n <=? 0 then Ok ([], r)
  else match fuel with
       | O => Err
       | S f =>
           do (id, r') <- read_string 64 r;
           do (ids, r'') <- read_ids f (n - 1) r';
           Ok (id :: ids, r'')
       end.

(** theirItems as a map: the distinct ids (negentropy.go:156-163). *)
Fixpoint dedup (l : list str) : list str :=
  match l with [] => [] | x :: r => if smem x r then dedup r else x :: dedup r end.

Definition del (x : str) (l : list str) : list str := filter (fun y => negb (seqb x y)) l.

(** negentropy.go:166-179: what is left of theirItems, and the ids only we
    have, in order. *)
Fixpoint compare_ids (theirs : list str) (ours : list item) : list str * list str :=
  match ours with
  | [] => (theirs, [])
  | it :: r =>
      if smem (it_id it) theirs then compare_ids (del (it_id it) theirs) r
      else let '(left_, haves) := compare_ids theirs r in (left_, it_id it :: haves)
  end.

(** negentropy.go:200-208: the server's ids until the frame is full. Returns
    the ids text, their number and, when cut short, the index and item it stopped at. *)
Fixpoint response_ids (limit : option Z) (full acc : str) (cnt idx : nat) (l : list item)
    : str * nat * option (nat * item) :=
  match l with
  | [] => (acc, cnt, None)
  | it :: r =>
      if over_limit limit full acc then (acc, cnt, Some (idx, it))
      else response_ids limit full (acc ++ it_id it) (cnt + 1) (idx + 1) r
  end.

(** The variables that live across iterations of the loop of negentropy.go:113-235. *)
Record nstate := mkN {
  n_in : Z;               (* lastTimestampIn *)
  n_out : Z;              (* lastTimestampOut *)
  n_prev_bound : item;
  n_prev_index : nat;
  n_skipping : bool;
  n_full : str;           (* fullOutput *)
  n_haves : list str;     (* sent on the Haves channel *)
  n_havenots : list str   (* sent on the HaveNots channel; map order is unspecified, listed here in order of arrival *)
}.

(** negentropy.go:116-123 finishSkip: text for partialOutput and lastTimestampOut. *)
Definition finish_skip (st : nstate) : outcome (str * Z) :=
  if n_skipping st then
    do (b, last) <- write_bound (n_out st) (n_prev_bound st);
    Ok (b ++ write_byte 0, last)
  else Ok ([], n_out st).

(** negentropy.go:222-235: the end of an iteration. The flag says whether to
    leave the loop. *)
Definition end_iteration (items : list item) (limit : option Z) (st : nstate) (full partial : str) (out : Z)
    (upper : nat) (bound : item) (skipping : bool) (haves havenots : list str) : outcome (nstate * bool) :=
  if over_limit limit full partial then
    do fp <- fingerprint items upper (length items);
    do (b, out') <- write_bound out infinite_bound;
    Ok (mkN (it_ts bound) out' bound upper skipping (full ++ b ++ write_byte 1 ++ fp) haves havenots, true)
  else Ok (mkN (it_ts bound) out bound upper skipping (full ++ partial) haves havenots, false).

(** negentropy.go:113-235: one iteration. *)
Definition iteration (items : list item) (limit : option Z) (client : bool) (st : nstate) (r : str)
    : outcome (nstate * str * bool) :=
  do (bound, r1) <- read_bound (n_in st) r;
  do (mode, r2) <- read_varint r1;
  let lower := n_prev_index st in
  let upper := find_lower_bound items lower (length items) bound in
  let m := mode mod 256 in
  if m =? 0 then
    do (st', stop) <- end_iteration items limit st (n_full st) [] (n_out st) upper bound true (n_haves st) (n_havenots st);
    Ok (st', r2, stop)
  else if m =? 1 then
    do (theirs, r3) <- read_string 32 r2;
    do ours <- fingerprint items lower upper;
    if seqb theirs ours then
      do (st', stop) <- end_iteration items limit st (n_full st) [] (n_out st) upper bound true (n_haves st) (n_havenots st);
      Ok (st', r3, stop)
    else
      do (sk, out1) <- finish_skip st;
      do (sp, out2) <- split_range items lower upper bound out1;
      do (st', stop) <- end_iteration items limit st (n_full st) (sk ++ sp) out2 upper bound false (n_haves st) (n_havenots st);
      Ok (st', r3, stop)
  else if m =? 2 then
    do (num, r3) <- read_varint r2;
    do (ids, r4) <- read_ids (length r3) num r3;
    let '(left_, haves) := compare_ids (dedup ids) (range items lower upper) in
    if client then
      do (st', stop) <- end_iteration items limit st (n_full st) [] (n_out st) upper bound true
                          (n_haves st ++ haves) (n_havenots st ++ left_);
      Ok (st', r4, stop)
    else
      do (sk, out1) <- finish_skip st;
      let '(resp, cnt, cut) := response_ids limit (n_full st) [] 0 lower (range items lower upper) in
      let '(upper', end_bound) := match cut with Some (i, it) => (i, it) | None => (upper, bound) end in
      do (b, out2) <- write_bound out1 end_bound;
      do n <- write_varint (Z.of_nat cnt);
      do (st', stop) <- end_iteration items limit st (n_full st ++ sk ++ b ++ write_byte 2 ++ n ++ resp) [] out2
                          upper' bound false (n_haves st) (n_havenots st);
      Ok (st', r4, stop)
  else Err.

(** The loop: each iteration consumes text. *)
Fixpoint reconcile_loop (fuel : nat) (items : list item) (limit : option Z) (client : bool) (st : nstate) (r : str)
    : outcome nstate :=
  match r with
  | [] => Ok st
  | _ => match fuel with
         | O => Err
         | S f => do (st', r', stop) <- iteration items limit client st r;
                  if (stop : bool) then Ok st' else reconcile_loop f items limit client st' r'
         end
  end.

(** negentropy.go:85-238 reconcileAux: output, ids sent on Haves and on HaveNots. *)
Definition reconcile_aux (items : list item) (limit : option Z) (client : bool) (msg : str)
    : outcome (str * list str * list str) :=
  do (pv, r) <- read_hex_byte msg;
  if negb (pv =? protocol_version)%N then
    if client then Err else Ok (write_byte protocol_version, [], [])
  else
    do st <- reconcile_loop (length r) items limit client
               (mkN 0 0 zero_bound 0 false (write_byte protocol_version) [] []) r;
    Ok (n_full st, n_haves st, n_havenots st).

(** negentropy.go:67-83 Reconcile: output, ids sent, and whether the channels
    were closed. *)
Definition reconcile (items : list item) (limit : option Z) (client : bool) (msg : str)
    : outcome (str * list str * list str * bool) :=
  do (out, haves, havenots) <- reconcile_aux items limit client msg;
  if Nat.eqb (length out) 2 && client then Ok ([], haves, havenots, true)
  else Ok (out, haves, havenots, false).

(** A whole session, as nip77.go:100-150 drives it: the client starts, each
    answer of the server is reconciled until the channels are closed. [fuel]
    bounds the round trips. Returns the ids reported and the number of round
    trips. *)
Fixpoint session_loop (fuel : nat) (cl sl : option Z) (citems sitems : list item) (msg : str)
    (haves havenots : list str) : outcome (list str * list str) :=
  match fuel with
  | O => Err
  | S f =>
      do (answer, _, _, _) <- reconcile sitems sl false msg;
      do (next, h, hn, closed) <- reconcile citems cl true answer;
      if (closed : bool) then Ok (haves ++ h, havenots ++ hn)
      else session_loop f cl sl citems sitems next (haves ++ h) (havenots ++ hn)
  end.
Definition session (fuel : nat) (cl sl : option Z) (citems sitems : list item) : outcome (list str * list str) :=
  do m <- start citems;
  session_loop fuel cl sl citems sitems m [] [].

End Neg.
