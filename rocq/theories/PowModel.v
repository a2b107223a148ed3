(** Proof of work: /repo/nip13/nip13.go. *)
From Verif Require Import Base EventModel TagsModel.

(** bits.LeadingZeros8 *)
Definition clz8 (c : ascii) : Z := 8 - Z.of_N (N.size (val c)).

(** nip13.go:40-57: the loop with [n] pairs left; slicing past the end of the id panics *)
Fixpoint difficulty_loop (n : nat) (zeros : Z) (s : str) : outcome Z :=
  match n with
  | O => Ok zeros
  | S k =>
    match s with
    | a :: b :: r =>
      if seqb [a; b] (B "00") then difficulty_loop k (zeros + 8) r
      else match hex_decode [a; b] with
           | Some (x :: _) => Ok (zeros + clz8 x)%Z
           | _ => Ok (-1)%Z
           end
    | _ => Panic
    end
  end.
Definition difficulty (id : str) : outcome Z := difficulty_loop 32 0 id.

(** strconv.Atoi with the error dropped: 0 for what is not a number, the nearest bound for what does not fit *)
Definition atoi_value (s : str) : Z :=
  let clamp (neg : bool) o :=
    match o with
    | None => 0%Z
    | Some n => let z := Z.of_N n in if neg then Z.max min_int64 (- z) else Z.min max_int64 z
    end in
  match s with
  | c :: r => if ceqb c "-"%char then clamp true (parse_digits r)
              else if ceqb c "+"%char then clamp false (parse_digits r) else clamp false (parse_digits s)
  | [] => 0%Z
  end.

(** nip13.go:25-37 *)
Definition committed_difficulty (e : event) : outcome Z :=
  match find_tag (ev_tags e) (B "nonce") with
  | Some t =>
    match nth_error t 2 with
    | Some s => obind (difficulty (ev_id e)) (fun work => let target := atoi_value s in Ok (if (target <=? work)%Z then target else 0%Z))
    | None => Ok 0%Z
    end
  | None => Ok 0%Z
  end.

(** nip13.go:59-70 *)
Fixpoint difficulty_bytes (id : str) : Z :=
  match id with
  | [] => 0
  | c :: r => if N.eqb (val c) 0 then 8 + difficulty_bytes r else clz8 c
  end.

(** nip13.go:74-79 *)
Definition check_pow (id : str) (min : Z) : outcome unit :=
  obind (difficulty id) (fun d => if (d <? min)%Z then Err else Ok tt).

(** nip13.go:84-135, DoWork. Workers 0..threads-1; worker i has tried k nonces i, i+threads, i+2*threads, ... modulo 2^64. *)
Section Work.
  Variable sha256 : str -> str.
  Variable ev : event.
  Variable target : Z.
  Variable threads : nat.

  Definition nonce_of (i k : nat) : N := (N.of_nat i + N.of_nat k * N.of_nat threads) mod 2 ^ 64.
  (** the tag made at line 101 with its second item as of the k-th try *)
  Definition work_tag (i k : nat) : tag := [B "nonce"; dec_N (nonce_of i k); dec_Z target].
  Definition with_tag (t : tag) : event :=
    mkEvent (ev_id ev) (ev_pubkey ev) (ev_created_at ev) (ev_kind ev) (ev_tags ev ++ [t]) (ev_content ev) (ev_sig ev).
  (** line 109 *)
  Definition good (i k : nat) : bool := (target <=? difficulty_bytes (sha256 (serialize (with_tag (work_tag i k)))))%Z.

  (** A worker is trying, waits in its select with a tag found at try k (line 112), or has returned. *)
  Inductive worker := Trying (k : nat) | Offering (k : nat) | Stopped.
  (** What DoWork has returned, if anything *)
  Inductive answer := Found (t : tag) | Timeout | NoPubKey.
  Record pow := mkPow { p_workers : list worker; p_cancelled : bool; p_answer : option answer }.

  (** lines 85-99: without a public key nothing is started *)
  Definition pow_init : pow :=
    if Nat.eqb (length (ev_pubkey ev)) 0 then mkPow [] false (Some NoPubKey)
    else mkPow (repeat (Trying 0) threads) false None.

  Inductive pow_step : pow -> pow -> Prop :=
  | StepTry ws c a i k : nth_error ws i = Some (Trying k) -> good i k = false ->
      pow_step (mkPow ws c a) (mkPow (set_nth i (Trying (S k)) ws) c a)
  | StepHit ws c a i k : nth_error ws i = Some (Trying k) -> good i k = true ->
      pow_step (mkPow ws c a) (mkPow (set_nth i (Offering k) ws) c a)
  (** every 10000 tries a worker may see the cancelled context (lines 122-128) *)
  | StepQuit ws a i k : nth_error ws i = Some (Trying k) ->
      pow_step (mkPow ws true a) (mkPow (set_nth i Stopped ws) true a)
  (** the unbuffered send meets the receive at line 137; DoWork returns and its deferred cancel runs *)
  | StepSend ws c i k : nth_error ws i = Some (Offering k) ->
      pow_step (mkPow ws c None) (mkPow (set_nth i Stopped ws) true (Some (Found (work_tag i k))))
  (** the other arm of the worker's select *)
  | StepDrop ws a i k : nth_error ws i = Some (Offering k) ->
      pow_step (mkPow ws true a) (mkPow (set_nth i Stopped ws) true a)
  (** line 135 *)
  | StepTimeout ws : pow_step (mkPow ws true None) (mkPow ws true (Some Timeout))
  (** the caller's context ends *)
  | StepCancel ws c a : pow_step (mkPow ws c a) (mkPow ws true a).
  Inductive pow_reach : pow -> Prop :=
  | ReachInit : pow_reach pow_init
  | ReachStep s s' : pow_reach s -> pow_step s s' -> pow_reach s'.
End Work.
