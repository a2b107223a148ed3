(** Counting sketches: /repo/nip45/hyperloglog/hll.go, helpers.go, /repo/nip45/hll_event.go, hll_filter.go. Count (floating point) is
    not modelled. *)
From Verif Require Import Base EventModel TagsModel FilterModel Nip19Model.
Local Open Scope N_scope.

(** hll.go:11-14; registers as byte values *)
Definition registers := list N.
(** hll.go:16-26 *)
Definition valid_offset (offset : Z) : bool := (0 <=? offset)%Z && (offset <=? 24)%Z.
Definition hll_new (offset : Z) : outcome registers := if valid_offset offset then Ok (repeat 0 256) else Panic.
(** hll.go:28-36 *)
Definition hll_with (regs : registers) (offset : Z) : outcome registers :=
  if negb (valid_offset offset) then Panic else if Nat.eqb (length regs) 256 then Ok regs else Panic.

(** helpers.go:16-22: the loop from bit [n]-1 down *)
Fixpoint clz56_loop (n : nat) (x : N) : N :=
  match n with
  | O => 0
  | S k => if N.testbit x (N.of_nat k) then 0 else 1 + clz56_loop k x
  end.
Definition clz56 (x : N) : N := clz56_loop 56 x.
(** binary.BigEndian.Uint64 on eight bytes *)
Definition be (s : str) : N := fold_left (fun a c => a * 256 + val c) s 0.

(** hll.go:62-67, 75-80: one eight-byte window into the registers; indexing a missing register panics *)
Definition put (regs : registers) (x : str) : outcome registers :=
  match x with
  | [] => Panic
  | c :: _ =>
    let j := N.to_nat (val c) in
    let zero_bits := clz56 (be x) + 1 in
    match nth_error regs j with
    | None => Panic
    | Some v => Ok (if v <? zero_bits then set_nth j zero_bits regs else regs)
    end
  end.
(** hll.go:70-81 for a slice without spare capacity *)
Definition add_bytes (offset : nat) (regs : registers) (pubkey : str) : outcome registers :=
  if Nat.ltb (length pubkey) (offset + 8) then Panic else put regs (firstn 8 (skipn offset pubkey)).
(** hll.go:57-68. When hex.DecodeString stops early it returns fewer than eight bytes and Uint64 panics. *)
Definition add_hex (offset : nat) (regs : registers) (pubkey : str) : outcome registers :=
  if Nat.ltb (length pubkey) (offset * 2 + 16) then Panic
  else match hex_decode (firstn 16 (skipn (offset * 2) pubkey)) with
       | None => Panic
       | Some x => put regs x
       end.
(** hll.go:39-45 and 83-89 *)
Fixpoint merge_registers (regs other : registers) : outcome registers :=
  match other, regs with
  | [], _ => Ok regs
  | _ :: _, [] => Panic
  | v :: o, r :: rs => obind (merge_registers rs o) (fun t => Ok ((if r <? v then v else r) :: t))
  end.

(** ** nip45 *)
(** strconv.ParseInt(v[32:33], 16, 64) + 8; the error is dropped in hll_event.go (giving 0) and reported in hll_filter.go *)
Definition nibble (v : str) : option N := match nth_error v 32 with Some c => hex_val c | None => None end.
Definition offset_of (v : str) : Z := Z.of_N (match nibble v with Some n => n | None => 0 end) + 8.

(** hll_event.go:10-57: the pairs yielded *)
Definition pairs_for_event (e : event) : list (str * Z) :=
  let one (t : option tag) :=
    match t with
    | Some (_ :: v :: _) => if valid_32byte_hex v then [(v, offset_of v)] else []
    | _ => []
    end in
  if (ev_kind e =? 3)%Z then
    flat_map (fun t => match t with
                       | k :: v :: _ => if seqb k (B "p") && valid_32byte_hex v then [(v, offset_of v)] else []
                       | _ => []
                       end) (ev_tags e)
  else if (ev_kind e =? 7)%Z then one (find_last (ev_tags e) (B "e"))
  else if (ev_kind e =? 1111)%Z then one (find_tag (ev_tags e) (B "E"))
  else [].

(** hll_filter.go:11-67 *)
Definition offset_for_filter (f : nfilter) : Z :=
  let served (vs : option (list str)) (kind : Z) : Z :=
    match oslice vs with
    | [v] => if valid_32byte_hex v && match oslice (f_kinds f) with k :: _ => (k =? kind)%Z | [] => false end
             then match nibble v with Some n => (Z.of_N n + 8)%Z | None => (-1)%Z end else (-1)%Z
    | _ => (-1)%Z
    end in
  let some {A} (o : option A) := match o with Some _ => true | None => false end in
  if some (f_ids f) || some (f_since f) || some (f_until f) || some (f_authors f) || negb (Nat.eqb (length (oslice (f_kinds f))) 1)
     || negb (seqb (f_search f) []) || negb (Nat.eqb (length (f_tags f)) 1) then (-1)%Z
  else match assoc (B "p") (f_tags f) with
       | Some vs => served vs 3%Z
       | None => match assoc (B "e") (f_tags f) with
                 | Some vs => served vs 7%Z
                 | None => match assoc (B "E") (f_tags f) with
                           | Some vs => served vs 1111%Z
                           | None => (-1)%Z
                           end
                 end
       end.
